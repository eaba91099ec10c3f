(** C103, C104, C105: the library of dREL methods (drel/drel_runtime.nw). *)
From Coq Require Import String List NArith ZArith PeanoNat Bool Lia Permutation.
From Verif Require Import PyBase RuntimeModel RuntimeSpec RuntimeProofs RuntimeProofs2.
Import ListNotations.
Open Scope nat_scope.

(** ** C103: multiplication follows the rules of dREL *)
(** Lists and matrices that fit: a list on the left is a row, a list on the right a
    column, what is given is the product, as a number if it is one by one, as a list
    if it is a row or a column. *)
Theorem C103_product : forall x y a b r n p,
  left_factor x a -> right_factor y b -> sized a r n -> sized b n p -> r <> 0 -> n <> 0 ->
  exists c v, product a b c r n p /\ given c r p v /\ drel_dot x y = Ret v.
Proof. exact dot_product. Qed.
(** There is only one product, and one way to give it. *)
Theorem C103_unique : forall a b c d r n p v w,
  product a b c r n p -> product a b d r n p -> given c r p v -> given d r p w -> c = d /\ v = w.
Proof.
  intros a b c d r n p v w P Q V W. pose proof (product_unique a b c d r n p P Q) as ->.
  split; [reflexivity | exact (given_unique d r p v w V W)].
Qed.
(** Factors that do not fit are refused, and so are rows of unequal length. *)
Theorem C103_refuses : forall x y a b r n n' p,
  left_factor x a -> right_factor y b -> sized a r n -> sized b n' p -> r <> 0 -> n' <> 0 -> n <> n' ->
  drel_dot x y = Raise ValueErr.
Proof. exact dot_refuses. Qed.
Theorem C103_ragged : forall m row x, In row m -> length row <> cols m ->
  drel_dot (Mat m) x = Raise ValueErr /\ (make_numpy x <> Raise ValueErr -> drel_dot x (Mat m) = Raise ValueErr).
Proof.
  intros m row x H L. pose proof (dot_ragged m row H L) as E. unfold drel_dot. rewrite E. split; [reflexivity|].
  intro Hx. destruct (make_numpy x) as [k|e] eqn:Ex; [reflexivity|].
  destruct x as [z|l|m']; cbn [make_numpy] in Ex; try discriminate Ex. destruct (forallb _ m'); congruence.
Qed.
(** A number times a matrix, on either side. *)
Theorem C103_scalar : forall k m r c, sized m r c -> r <> 0 ->
  exists m', drel_dot (Scal k) (Mat m) = Ret (Mat m') /\ drel_dot (Mat m) (Scal k) = Ret (Mat m') /\ sized m' r c /\
  forall i j, entry m' i j = times (Some k) (entry m i j).
Proof. exact dot_scalar. Qed.

(** A matrix of one row on the right is taken for a list, so a product that exists is
    refused: the column of 1 and 2 times the row of 3 and 4
    (drel_runtime.nw 127-129). *)
Theorem C103_one_row_refuted : exists a b c,
  product a b c 2 1 2 /\ drel_dot (Mat a) (Mat b) = Raise ValueErr.
Proof.
  exists [[1%Z]; [2%Z]], [[3; 4]%Z], [[3; 4]; [6; 8]]%Z. split; [|reflexivity].
  destruct (mat_mul_product [[1%Z]; [2%Z]] [[3; 4]%Z] 2 1 2) as [c [E P]]; try discriminate; try (split; [reflexivity | repeat constructor]).
  vm_compute in E. injection E as <-. exact P.
Qed.
(** For the same reason a product that does not exist is given: rows of two numbers
    cannot be multiplied by a matrix with one row of two
    (drel_runtime.nw 127-129). *)
Theorem C103_unfit_refuted : exists a b v, sized a 2 2 /\ sized b 1 2 /\ drel_dot (Mat a) (Mat b) = Ret v.
Proof. exists [[1; 2]; [3; 4]]%Z, [[5; 6]%Z], (Vec [17; 39]%Z). repeat split; repeat constructor. Qed.
(** A number times a list is not a list but a matrix of one row, the case that the
    text before the function says has to be avoided, as its second element does not
    exist (drel_runtime.nw 101-107, 140). *)
Theorem C103_number_list_refuted : exists k v, v <> [] /\ exists m, drel_dot (Scal k) (Vec v) = Ret (Mat m) /\ length m = 1.
Proof. exists 2%Z, [1; 2; 3]%Z. split; [discriminate|]. exists [[2; 4; 6]%Z]. split; reflexivity. Qed.

Example C103_meets_matrix_list : exists c v,
  product [[1; 2; 3]; [4; 5; 6]]%Z (column [7; 8; 9]%Z) c 2 3 1 /\ given c 2 1 v /\
  drel_dot (Mat [[1; 2; 3]; [4; 5; 6]]%Z) (Vec [7; 8; 9]%Z) = Ret v.
Proof. apply C103_product; try discriminate; try constructor; try discriminate; repeat constructor. Qed.
Example C103_meets_values : drel_dot (Mat [[1; 2; 3]; [4; 5; 6]]%Z) (Vec [7; 8; 9]%Z) = Ret (Vec [50; 122]%Z) /\
  drel_dot (Vec [1; 2]%Z) (Vec [3; 4]%Z) = Ret (Scal 11) /\
  drel_dot (Vec [1; 2]%Z) (Mat [[3; 4]; [5; 6]]%Z) = Ret (Vec [13; 16]%Z) /\
  drel_dot (Mat [[1; 2]; [0; 1]]%Z) (Mat [[3; 4]; [5; 6]]%Z) = Ret (Mat [[13; 16]; [5; 6]]%Z).
Proof. repeat split. Qed.
Example C103_meets_refuses : drel_dot (Vec [1; 2]%Z) (Vec [3; 4; 5]%Z) = Raise ValueErr.
Proof.
  apply (C103_refuses _ _ [[1; 2]%Z] (column [3; 4; 5]%Z) 1 2 3 1); try discriminate; try constructor; try discriminate; repeat constructor.
Qed.
Example C103_meets_ragged : drel_dot (Mat [[1; 2]; [3]]%Z) (Scal 2) = Raise ValueErr.
Proof. apply (C103_ragged [[1; 2]; [3]]%Z [3]%Z); [right; left; reflexivity | discriminate]. Qed.
Example C103_meets_scalar : drel_dot (Scal 3) (Mat [[1; 2]; [0; 1]]%Z) = Ret (Mat [[3; 6]; [0; 3]]%Z).
Proof. reflexivity. Qed.

(** ** C104: augmented assignments and lists *)
Theorem C104_append : forall l x, aug_append (IList l) x = Ret (IList (l ++ [x])).
Proof. reflexivity. Qed.
Theorem C104_append_refuses : forall c x, (forall l, c <> IList l) -> aug_append c x = Raise ValueErr.
Proof. intros [z|s|l|] x H; try reflexivity. exfalso. exact (H l eq_refl). Qed.
(** += and -= on lists of numbers, and on a list and a number. *)
Theorem C104_lists : forall a b, length a = length b ->
  (exists c, aug_add (IList (map INum a)) (IList (map INum b)) = Ret (IList (map INum c)) /\ pointwise Z.add a b c) /\
  (exists c, aug_sub (IList (map INum a)) (IList (map INum b)) = Ret (IList (map INum c)) /\ pointwise Z.sub a b c).
Proof. intros a b E. split; [exact (aug_sum_lists Z.add a b E) | exact (aug_sum_lists Z.sub a b E)]. Qed.
Theorem C104_list_number : forall a z,
  aug_add (IList (map INum a)) (INum z) = Ret (IList (map INum (map (fun x => x + z)%Z a))) /\
  aug_sub (IList (map INum a)) (INum z) = Ret (IList (map INum (map (fun x => x - z)%Z a))).
Proof. intros a z. split; [exact (aug_sum_number Z.add a z) | exact (aug_sum_number Z.sub a z)]. Qed.
Theorem C104_mismatch : forall a b, length a <> length b -> length a <> 1 -> length b <> 1 ->
  aug_add (IList (map INum a)) (IList (map INum b)) = Raise ValueErr /\
  aug_sub (IList (map INum a)) (IList (map INum b)) = Raise ValueErr.
Proof. intros a b E A B. split; [exact (aug_sum_mismatch Z.add a b E A B) | exact (aug_sum_mismatch Z.sub a b E A B)]. Qed.
(** What was added can be taken away again. *)
Theorem C104_add_sub : forall a b s, length a = length b ->
  aug_add (IList (map INum a)) (IList (map INum b)) = Ret s -> aug_sub s (IList (map INum b)) = Ret (IList (map INum a)).
Proof.
  intros a b s E H. destruct (aug_sum_lists Z.add a b E) as [c [E1 [_ [Lc Pc]]]].
  unfold aug_add in H. rewrite E1 in H. injection H as <-.
  destruct (aug_sum_lists Z.sub c b) as [d [E2 [_ [Ld Pd]]]]; [congruence|]. unfold aug_sub. rewrite E2. do 3 f_equal.
  apply nth_error_ext. intro i. destruct (nth_error a i) as [x|] eqn:Ea.
  - assert (i < length a) by (apply nth_error_Some; congruence).
    destruct (nth_error b i) as [y|] eqn:Eb; [|apply nth_error_None in Eb; lia].
    rewrite (Pd i (x + y)%Z y (Pc i x y Ea Eb) Eb). f_equal. lia.
  - apply nth_error_None in Ea. apply nth_error_None. lia.
Qed.
(** --= takes away the first that is equal, and nothing if there is none. *)
Theorem C104_remove : forall x p q, ~ In x p -> exists after, aug_remove (IList (p ++ x :: q)) x = Ret (IList (p ++ q), after).
Proof. intros x p q H. exists (IList (p ++ q)). exact (remove_there x p q H). Qed.
Theorem C104_remove_absent : forall x l, ~ In x l -> aug_remove (IList l) x = Ret (IList l, IList l).
Proof. exact remove_absent. Qed.
(** Strip gives the n-th of each, in order, whenever each has one. *)
Theorem C104_strip : forall ls n, Forall (fun l => n < length l) ls ->
  exists r, drel_strip (map IList ls) n = Ret r /\ length r = length ls /\
  forall i l, nth_error ls i = Some l -> nth_error r i = nth_error l n.
Proof.
  intros ls n H. destruct (strip_total ls n H) as [r E]. exists r. split; [exact E|].
  destruct (strip_nth ls n r E) as [L R]. split; [exact L|]. intros i l Hl. exact (proj1 (R i l Hl)).
Qed.
Theorem C104_strip_only : forall ls n r, drel_strip (map IList ls) n = Ret r -> Forall (fun l => n < length l) ls.
Proof.
  intros ls n r H. destruct (strip_nth ls n r H) as [_ R]. apply Forall_forall. intros l Hl.
  apply In_nth_error in Hl. destruct Hl as [i Hi]. exact (proj2 (R i l Hi)).
Qed.

(** A list += a text gives nothing at all instead of an error
    (drel_runtime.nw 51-58). *)
Theorem C104_list_text_refuted : exists l s, aug_add (IList l) (IText s) = Ret INone.
Proof. exists [INum 1], (u "a"). reflexivity. Qed.
(** A number plus a list is the list of the sums, but a number += a list is refused
    (drel_runtime.nw 58, 147). *)
Theorem C104_number_list_refuted : exists z l r, drel_add (INum z) (IList l) = Ret r /\ aug_add (INum z) (IList l) = Raise TypeErr.
Proof. exists 1%Z, [INum 2; INum 3], (IList [INum 3; INum 4]). split; reflexivity. Qed.
(** --= changes the list itself, so another name for the same list sees it; the
    others make a new one (drel_runtime.nw 77-79). *)
Theorem C104_remove_changes_refuted : exists c x r after, aug_remove c x = Ret (r, after) /\ after <> c.
Proof. exists (IList [INum 1; INum 2]), (INum 1), (IList [INum 2]), (IList [INum 2]). split; [reflexivity | discriminate]. Qed.

Example C104_meets_add : aug_add (IList [INum 1; INum 2]) (IList [INum 10; INum 20]) = Ret (IList [INum 11; INum 22]) /\
  aug_sub (IList [INum 11; INum 22]) (IList [INum 10; INum 20]) = Ret (IList [INum 1; INum 2]).
Proof. split; [reflexivity|]. exact (C104_add_sub [1; 2]%Z [10; 20]%Z _ eq_refl eq_refl). Qed.
Example C104_meets_mismatch : aug_add (IList [INum 1; INum 2]) (IList [INum 1; INum 2; INum 3]) = Raise ValueErr.
Proof. apply (C104_mismatch [1; 2]%Z [1; 2; 3]%Z); discriminate. Qed.
Example C104_meets_remove : exists after, aug_remove (IList ([IText (u "a")] ++ INum 1 :: [INum 1])) (INum 1) = Ret (IList [IText (u "a"); INum 1], after).
Proof. apply (C104_remove (INum 1) [IText (u "a")] [INum 1]). intros [C|[]]. discriminate C. Qed.
Example C104_meets_strip : drel_strip [IList [INum 1; INum 2]; IList [INum 3; INum 4; INum 5]] 1 = Ret [INum 2; INum 4].
Proof. reflexivity. Qed.

(** ** C105: eigenvalues *)
(** The values are given in falling order, each once, each with the row of the
    matrix of vectors at its place. *)
Theorem C105_order : forall vals vects, length vects = length vals ->
  exists rows, drel_eigen vals vects = Ret (map (fun p => fst p :: snd p) rows) /\
    Permutation rows (combine vals vects) /\ falling (map fst rows).
Proof. exact eigen_rows. Qed.
(** Where the rows of the matrix are its columns, these are eigenvectors. *)
Theorem C105_symmetric_vectors : forall a n vals vects r l v,
  eig_of a n vals vects -> (forall i j, entry vects i j = entry vects j i) ->
  drel_eigen vals vects = Ret r -> In (l :: v) r -> eigenvector a n l v.
Proof.
  intros a n vals vects r l v [Sa [Sv [Lv H]]] Sym E Hin.
  destruct (eigen_rows vals vects) as [rows [E1 [P _]]]; [destruct Sv; congruence|].
  rewrite E1 in E. injection E as <-. apply in_map_iff in Hin. destruct Hin as [[l' v'] [Ep Hp]].
  cbn [fst snd] in Ep. injection Ep as -> ->. apply (Permutation_in _ P) in Hp.
  apply In_nth_error in Hp. destruct Hp as [j Hj].
  assert (Hc : forall (A B : Type) (x : list A) (y : list B) j p q, nth_error (combine x y) j = Some (p, q) -> nth_error x j = Some p /\ nth_error y j = Some q).
  { intros A B x. induction x as [|s x IH]; intros [|t y] [|k] p q C; try discriminate C; cbn in *; [injection C as -> ->; auto | exact (IH y k p q C)]. }
  destruct (Hc _ _ _ _ _ _ _ Hj) as [H1 H2]. apply (H j l v H1); [exact (sized_row vects n n j v Sv H2)|].
  intro i. rewrite Sym. unfold entry. rewrite H2. reflexivity.
Qed.

(** numpy gives the vectors as columns, but rows are taken: for the matrix with
    rows 1 1 0, 0 2 0, 0 0 3 the vector given with 2 is no eigenvector
    (drel_runtime.nw 159-164). *)
Theorem C105_rows_refuted : exists a vals vects r l v,
  eig_of a 3 vals vects /\ drel_eigen vals vects = Ret r /\ In (l :: v) r /\ ~ eigenvector a 3 l v.
Proof.
  exists [[1; 1; 0]; [0; 2; 0]; [0; 0; 3]]%Z, [1; 2; 3]%Z, [[1; 1; 0]; [0; 1; 0]; [0; 0; 1]]%Z,
    [[3; 0; 0; 1]; [2; 0; 1; 0]; [1; 1; 1; 0]]%Z, 2%Z, [0; 1; 0]%Z.
  split; [|split; [reflexivity|split; [right; left; reflexivity|]]].
  - split; [split; [reflexivity|repeat constructor]|]. split; [split; [reflexivity|repeat constructor]|]. split; [reflexivity|].
    intros j l v Hj Lv Hv. destruct v as [|x [|y [|z [|w v]]]]; try discriminate Lv.
    pose proof (Hv 0) as H0. pose proof (Hv 1) as H1. pose proof (Hv 2) as H2. clear Hv Lv.
    destruct j as [|[|[|j]]]; try (destruct j; discriminate Hj); vm_compute in Hj, H0, H1, H2;
      injection Hj as <-; injection H0 as ->; injection H1 as ->; injection H2 as ->.
    all: split; [reflexivity|]; split; [solve [left; discriminate | right; right; left; discriminate]|].
    all: intros [|[|[|i]]] Hi; try lia; eexists; eexists; (split; [reflexivity|]);
      (split; [econstructor; [econstructor; [econstructor; [constructor|reflexivity]|reflexivity]|reflexivity]|]); reflexivity.
  - intros [_ [_ H]]. destruct (H 0) as [s [x [E1 [E2 E3]]]]; [lia|]. injection E1 as <-.
    assert (E4 : sum_is 3 (fun k => times (entry [[1; 1; 0]; [0; 2; 0]; [0; 0; 3]]%Z 0 k) (nth_error [0; 1; 0]%Z k)) (0 + 0 + 1 + 0)%Z).
    { repeat econstructor. }
    pose proof (sum_unique _ _ _ _ E2 E4) as E5. rewrite E5 in E3. discriminate E3.
Qed.

Example C105_meets : drel_eigen [1; 3; 2]%Z [[1; 0; 0]; [0; 1; 0]; [0; 0; 1]]%Z = Ret [[3; 0; 1; 0]; [2; 0; 0; 1]; [1; 1; 0; 0]]%Z.
Proof. reflexivity. Qed.
Example C105_meets_symmetric : eigenvector [[1; 0; 0]; [0; 3; 0]; [0; 0; 2]]%Z 3 2 [0; 0; 1]%Z.
Proof.
  apply (C105_symmetric_vectors _ 3 [1; 3; 2]%Z [[1; 0; 0]; [0; 1; 0]; [0; 0; 1]]%Z [[3; 0; 1; 0]; [2; 0; 0; 1]; [1; 1; 0; 0]]%Z).
  - split; [split; [reflexivity|repeat constructor]|]. split; [split; [reflexivity|repeat constructor]|]. split; [reflexivity|].
    intros j l v Hj Lv Hv. destruct v as [|x [|y [|z [|w v]]]]; try discriminate Lv.
    pose proof (Hv 0) as H0. pose proof (Hv 1) as H1. pose proof (Hv 2) as H2. clear Hv Lv.
    destruct j as [|[|[|j]]]; try (destruct j; discriminate Hj); vm_compute in Hj, H0, H1, H2;
      injection Hj as <-; injection H0 as ->; injection H1 as ->; injection H2 as ->.
    all: split; [reflexivity|]; split; [solve [left; discriminate | right; left; discriminate | right; right; left; discriminate]|].
    all: intros [|[|[|i]]] Hi; try lia; eexists; eexists; (split; [reflexivity|]);
      (split; [econstructor; [econstructor; [econstructor; [constructor|reflexivity]|reflexivity]|reflexivity]|]); reflexivity.
  - intros i j. destruct i as [|[|[|i]]], j as [|[|[|j]]]; try reflexivity; unfold entry; cbn [nth_error].
    all: repeat match goal with |- context [nth_error [] ?k] => destruct k; cbn [nth_error] end; reflexivity.
  - reflexivity.
  - right; left; reflexivity.
Qed.

Definition runtime_theorems := (C103_product, C103_unique, C103_refuses, C103_ragged, C103_scalar, C103_one_row_refuted,
  C103_unfit_refuted, C103_number_list_refuted, C104_append, C104_append_refuses, C104_lists, C104_list_number, C104_mismatch,
  C104_add_sub, C104_remove, C104_remove_absent, C104_strip, C104_strip_only, C104_list_text_refuted,
  C104_number_list_refuted, C104_remove_changes_refuted, C105_order, C105_symmetric_vectors, C105_rows_refuted).
Print Assumptions runtime_theorems.
