(** The library of dREL methods: drel/drel_runtime.nw 26-181, over exact whole
    numbers.  What numpy does (matrices from nested lists, products, broadcasting
    of flat lists, fancy indexing by rows) is taken from its documentation.  Not
    modelled: numpy arrays as arguments, more than two dimensions, texts as
    factors, rounding.  No proofs here. *)
From Coq Require Import String List NArith ZArith PeanoNat Bool.
From Verif Require Import PyBase.
Import ListNotations.
Open Scope nat_scope.

(** Numbers, flat lists and lists of lists. *)
Inductive arg := Scal (a : Z) | Vec (l : list Z) | Mat (m : list (list Z)).

Definition cols (m : list (list Z)) : nat := match m with [] => 0 | r :: _ => length r end.
(** [numpy.matrix]: a flat list is one row; rows must be equally long
    (drel_runtime.nw 117-123). *)
Definition make_numpy (a : arg) : outcome (option (list (list Z))) :=
  match a with
  | Scal _ => Ret None
  | Vec l => Ret (Some [l])
  | Mat m => if forallb (fun r => Nat.eqb (length r) (cols m)) m then Ret (Some m) else Raise ValueErr
  end.

Fixpoint zip_cons (r : list Z) (cs : list (list Z)) : list (list Z) :=
  match r, cs with x :: r', c :: cs' => (x :: c) :: zip_cons r' cs' | _, _ => [] end.
(** [.T] *)
Definition transpose (m : list (list Z)) : list (list Z) := fold_right zip_cons (repeat [] (cols m)) m.
Definition dot (a b : list Z) : Z := fold_right Z.add 0%Z (map (fun p => fst p * snd p)%Z (combine a b)).
(** [*] of two matrices. *)
Definition mat_mul (a b : list (list Z)) : outcome (list (list Z)) :=
  if Nat.eqb (cols a) (length b) then Ret (map (fun r => map (dot r) (transpose b)) a) else Raise ValueErr.

(** drel_runtime.nw 132-139: scalars, vectors, and matrices as they are. *)
Definition reduce (m : list (list Z)) : arg :=
  match m with
  | [[x]] => Scal x
  | [r] => Vec r
  | _ => if Nat.eqb (cols m) 1 then Vec (concat m) else Mat m
  end.
(** drel_runtime.nw 114-140.  A number times a list is numpy's product of a number
    and a matrix, which has two dimensions. *)
Definition drel_dot (x y : arg) : outcome arg :=
  obind (make_numpy x) (fun fa => obind (make_numpy y) (fun sa =>
  match fa, sa with
  | Some a, Some b =>
      match b with
      | [r] => obind (mat_mul a (transpose b)) (fun c => Ret (reduce (transpose c)))
      | _ => obind (mat_mul a b) (fun c => Ret (reduce c))
      end
  | None, Some b => Ret (match x with Scal k => Mat (map (map (Z.mul k)) b) | _ => Mat b end)
  | Some a, None => Ret (match y with Scal k => Mat (map (map (fun z => Z.mul z k)) a) | _ => Mat a end)
  | None, None => match x, y with Scal j, Scal k => Ret (Scal (j * k)) | _, _ => Raise TypeErr end
  end)).

(** ** Augmented assignments, on numbers, texts and lists of anything *)
Inductive item := INum (z : Z) | IText (s : str) | IList (l : list item) | INone.

(** drel_runtime.nw 26-46, without numpy arrays *)
Definition aug_append (current extra : item) : outcome item :=
  match current with IList l => Ret (IList (l ++ [extra])) | _ => Raise ValueErr end.

(** numpy's sum of two flat lists: equally long, or one of them with one element. *)
Fixpoint nums (l : list item) : option (list Z) :=
  match l with
  | [] => Some []
  | INum z :: r => option_map (cons z) (nums r)
  | _ => None
  end.
Definition broadcast (f : Z -> Z -> Z) (a b : list Z) : outcome item :=
  match a, b with
  | _, [y] => Ret (IList (map (fun x => INum (f x y)) a))
  | [x], _ => Ret (IList (map (fun y => INum (f x y)) b))
  | _, _ => if Nat.eqb (length a) (length b) then Ret (IList (map (fun p => INum (f (fst p) (snd p))) (combine a b))) else Raise ValueErr
  end.
(** drel_runtime.nw 48-69; lists of other things than numbers are numpy's affair
    ([NotImplErr] here). *)
Definition aug_sum (f : Z -> Z -> Z) (current extra : item) : outcome item :=
  match current, extra with
  | IList l, INum z => match nums l with Some a => broadcast f a [z] | None => Raise NotImplErr end
  | IList l, IList m => match nums l, nums m with Some a, Some b => broadcast f a b | _, _ => Raise NotImplErr end
  | IList _, _ => Ret INone
  | INum a, INum b => Ret (INum (f a b))
  | _, _ => Raise TypeErr
  end.
(** drel_runtime.nw 48-58; [+] of texts joins them. *)
Definition aug_add (current extra : item) : outcome item :=
  match current, extra with
  | IText s, IText t => Ret (IText (s ++ t))
  | _, _ => aug_sum Z.add current extra
  end.
(** drel_runtime.nw 60-69 *)
Definition aug_sub (current extra : item) : outcome item := aug_sum Z.sub current extra.

(** drel_runtime.nw 142-148: texts, and numpy.add on numbers and flat lists. *)
Definition drel_add (x y : item) : outcome item :=
  match x, y with
  | IText s, IText t => Ret (IText (s ++ t))
  | INum a, IList l => match nums l with Some b => broadcast Z.add [a] b | None => Raise NotImplErr end
  | IText _, _ | _, IText _ | INone, _ | _, INone => Raise TypeErr
  | _, _ => aug_sum Z.add x y
  end.

Fixpoint item_eqb (x y : item) {struct x} : bool :=
  match x, y with
  | INum a, INum b => (a =? b)%Z
  | IText s, IText t => str_eqb s t
  | IList l, IList m => (fix go (l m : list item) : bool :=
                           match l, m with [], [] => true | a :: l', b :: m' => item_eqb a b && go l' m' | _, _ => false end) l m
  | INone, INone => true
  | _, _ => false
  end.
Fixpoint remove_first (x : item) (l : list item) : list item :=
  match l with [] => [] | y :: r => if item_eqb y x then r else y :: remove_first x r end.
(** drel_runtime.nw 71-84: what is returned, and what [current] is afterwards. *)
Definition aug_remove (current extra : item) : outcome (item * item) :=
  match current with
  | IList l => let l' := if existsb (fun y => item_eqb y extra) l then remove_first extra l else l in Ret (IList l', IList l')
  | _ => Raise ValueErr
  end.

(** ** drel_runtime.nw 156-165: [eig] (numpy) is a parameter, it gives the
    eigenvalues and the matrix of eigenvectors. *)
Fixpoint insert_desc (vals : list Z) (i : nat) (l : list nat) : list nat :=
  match l with
  | [] => [i]
  | j :: r => if (nth j vals 0 <? nth i vals 0)%Z then i :: l else j :: insert_desc vals i r
  end.
(** argsort, reversed: the positions in decreasing order of their values, of equal
    ones the later first (drel_runtime.nw 160-161). *)
Definition argsort_desc (vals : list Z) : list nat := fold_right (insert_desc vals) [] (seq 0 (length vals)).
Fixpoint picks {A} (l : list A) (is : list nat) : outcome (list A) :=
  match is with
  | [] => Ret []
  | i :: r => match nth_error l i with Some x => obind (picks l r) (fun y => Ret (x :: y)) | None => Raise IndexErr end
  end.
(** Indexing a matrix by a list takes rows. *)
Definition drel_eigen (vals : list Z) (vects : list (list Z)) : outcome (list (list Z)) :=
  let move := argsort_desc vals in
  obind (picks vals move) (fun vs => obind (picks vects move) (fun ws =>
  Ret (map (fun p => fst p :: snd p) (combine vs ws)))).

(** ** drel_runtime.nw 178-181 *)
Fixpoint drel_strip (l : list item) (n : nat) : outcome (list item) :=
  match l with
  | [] => Ret []
  | IList m :: r => match nth_error m n with
                    | Some x => obind (drel_strip r n) (fun y => Ret (x :: y))
                    | None => Raise IndexErr
                    end
  | IText s :: r => match nth_error s n with
                    | Some c => obind (drel_strip r n) (fun y => Ret (IText [c] :: y))
                    | None => Raise IndexErr
                    end
  | _ :: _ => Raise TypeErr
  end.
