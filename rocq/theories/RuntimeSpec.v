(** Matrices by their entries. *)
From Coq Require Import List NArith ZArith PeanoNat.
From Verif Require Import PyBase RuntimeModel.
Import ListNotations.
Open Scope nat_scope.

Definition entry (m : list (list Z)) (i j : nat) : option Z :=
  match nth_error m i with Some r => nth_error r j | None => None end.
(** m rows of n numbers. *)
Definition sized (m : list (list Z)) (r c : nat) : Prop := length m = r /\ Forall (fun x => length x = c) m.
(** The sum of f 0, ..., f (n-1). *)
Inductive sum_is : nat -> (nat -> option Z) -> Z -> Prop :=
| sum_none f : sum_is 0 f 0
| sum_one n f s x : sum_is n f s -> f n = Some x -> sum_is (S n) f (s + x).
Definition times (a b : option Z) : option Z := match a, b with Some x, Some y => Some (x * y)%Z | _, _ => None end.

(** c is the product of a (r by n) and b (n by p). *)
Definition product (a b c : list (list Z)) (r n p : nat) : Prop :=
  sized a r n /\ sized b n p /\ sized c r p /\
  forall i j, i < r -> j < p -> exists x, entry c i j = Some x /\ sum_is n (fun k => times (entry a i k) (entry b k j)) x.

(** The factors of a product as matrices: a flat list is a row on the left and a
    column on the right, when the other factor is a list as well. *)
Definition column (v : list Z) : list (list Z) := map (fun x => [x]) v.
Inductive left_factor : arg -> list (list Z) -> Prop :=
| left_vec v : left_factor (Vec v) [v]
| left_mat m : left_factor (Mat m) m.
Inductive right_factor : arg -> list (list Z) -> Prop :=
| right_vec v : v <> [] -> right_factor (Vec v) (column v)
| right_mat m : length m <> 1 -> right_factor (Mat m) m.

(** What is given for a product of r by p: a number, a list, or rows. *)
Inductive given : list (list Z) -> nat -> nat -> arg -> Prop :=
| given_number x : given [[x]] 1 1 (Scal x)
| given_row v p : p <> 1 -> given [v] 1 p (Vec v)
| given_column v r : r <> 1 -> given (column v) r 1 (Vec v)
| given_rows m r p : r <> 1 -> p <> 1 -> given m r p (Mat m).

(** Elementwise operations. *)
Definition pointwise (f : Z -> Z -> Z) (a b c : list Z) : Prop :=
  length a = length b /\ length c = length a /\
  forall i x y, nth_error a i = Some x -> nth_error b i = Some y -> nth_error c i = Some (f x y).

(** v is an eigenvector of the matrix a (n by n) to the value l. *)
Definition eigenvector (a : list (list Z)) (n : nat) (l : Z) (v : list Z) : Prop :=
  length v = n /\ Exists (fun x => x <> 0%Z) v /\
  forall i, i < n -> exists s x, nth_error v i = Some x /\ sum_is n (fun k => times (entry a i k) (nth_error v k)) s /\ s = (l * x)%Z.
(** What eig gives for a: its values, and its vectors as the columns of a matrix
    (numpy.linalg.eig). *)
Definition eig_of (a : list (list Z)) (n : nat) (vals : list Z) (vects : list (list Z)) : Prop :=
  sized a n n /\ sized vects n n /\ length vals = n /\
  forall j l v, nth_error vals j = Some l -> length v = n -> (forall i, nth_error v i = entry vects i j) -> eigenvector a n l v.
(** Values that do not grow. *)
Definition falling (l : list Z) : Prop := forall i j x y, i < j -> nth_error l i = Some x -> nth_error l j = Some y -> (y <= x)%Z.
