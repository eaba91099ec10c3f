(** Augmented assignments, eigenvalues, strip. *)
From Coq Require Import String List NArith ZArith PeanoNat Bool Lia Permutation Sorted.
From Verif Require Import PyBase PyFacts RuntimeModel RuntimeSpec RuntimeProofs.
Import ListNotations.
Open Scope nat_scope.

Lemma nums_map : forall a, nums (map INum a) = Some a.
Proof. induction a as [|x a IH]; [reflexivity|]. cbn [map nums]. rewrite IH. reflexivity. Qed.

Lemma combine_pointwise : forall f a b, length a = length b -> pointwise f a b (map (fun p => f (fst p) (snd p)) (combine a b)).
Proof.
  intros f a b E. split; [exact E|]. split; [rewrite map_length, combine_length; lia|].
  revert b E. induction a as [|x a IH]; intros [|y b] E [|i] p q; cbn [nth_error combine map]; intros H1 H2; try discriminate.
  - injection H1 as <-. injection H2 as <-. reflexivity.
  - apply IH; [injection E; auto | exact H1 | exact H2].
Qed.

Lemma broadcast_same : forall f a b, length a = length b ->
  broadcast f a b = Ret (IList (map (fun p => INum (f (fst p) (snd p))) (combine a b))).
Proof.
  intros f a b E. unfold broadcast.
  destruct a as [|x [|x' a]], b as [|y [|y' b]]; try discriminate E; try reflexivity.
  rewrite (proj2 (Nat.eqb_eq _ _) E). reflexivity.
Qed.

Lemma aug_sum_lists : forall f a b, length a = length b ->
  exists c, aug_sum f (IList (map INum a)) (IList (map INum b)) = Ret (IList (map INum c)) /\ pointwise f a b c.
Proof.
  intros f a b E. exists (map (fun p => f (fst p) (snd p)) (combine a b)). split; [|apply combine_pointwise; exact E].
  cbn [aug_sum]. rewrite !nums_map, (broadcast_same f a b E), map_map. reflexivity.
Qed.

Lemma aug_sum_number : forall f a z, aug_sum f (IList (map INum a)) (INum z) = Ret (IList (map INum (map (fun x => f x z) a))).
Proof. intros f a z. cbn [aug_sum]. rewrite nums_map. unfold broadcast. rewrite map_map. destruct a as [|x [|y a]]; reflexivity. Qed.

Lemma aug_sum_mismatch : forall f a b, length a <> length b -> length a <> 1 -> length b <> 1 ->
  aug_sum f (IList (map INum a)) (IList (map INum b)) = Raise ValueErr.
Proof.
  intros f a b E Ha Hb. cbn [aug_sum]. rewrite !nums_map. unfold broadcast.
  destruct a as [|x [|x' a]], b as [|y [|y' b]]; cbn [length] in *; try lia; try reflexivity.
  rewrite (proj2 (Nat.eqb_neq _ _) E). reflexivity.
Qed.

(** ** Removal *)
Fixpoint item_ind2 (P : item -> Prop) (hn : forall z, P (INum z)) (ht : forall s, P (IText s))
  (hl : forall l, Forall P l -> P (IList l)) (h0 : P INone) (x : item) : P x :=
  match x with
  | INum z => hn z
  | IText s => ht s
  | IList l => hl l ((fix go (l : list item) : Forall P l :=
                        match l with [] => Forall_nil P | y :: r => Forall_cons y (item_ind2 P hn ht hl h0 y) (go r) end) l)
  | INone => h0
  end.

Lemma item_eqb_spec : forall x y, item_eqb x y = true <-> x = y.
Proof.
  intro x. induction x as [z|s|l H|] using item_ind2; intros [z'|s'|l'|]; cbn [item_eqb]; split; intro E; try discriminate E; try reflexivity.
  - apply Z.eqb_eq in E. congruence.
  - injection E as ->. apply Z.eqb_refl.
  - destruct (str_eqb_spec s s') as [->|]; [reflexivity | discriminate E].
  - injection E as ->. destruct (str_eqb_spec s' s'); [reflexivity | congruence].
  - f_equal. revert l' E. induction H as [|a l Ha Hl IH]; intros [|b l'] E; try discriminate E; [reflexivity|].
    apply andb_true_iff in E. destruct E as [E1 E2]. f_equal; [apply Ha; exact E1 | apply IH; exact E2].
  - injection E as <-. induction H as [|a l Ha Hl IH]; [reflexivity|]. apply andb_true_iff. split; [apply Ha; reflexivity | exact IH].
Qed.

Lemma remove_first_split : forall x p q, ~ In x p -> remove_first x (p ++ x :: q) = p ++ q.
Proof.
  intros x p q. induction p as [|y p IH]; intro H; cbn [app remove_first].
  - rewrite (proj2 (item_eqb_spec x x) eq_refl). reflexivity.
  - destruct (item_eqb y x) eqn:E.
    + apply item_eqb_spec in E. exfalso. apply H. left. exact E.
    + f_equal. apply IH. intro C. apply H. right. exact C.
Qed.

Lemma remove_there : forall x p q, ~ In x p -> aug_remove (IList (p ++ x :: q)) x = Ret (IList (p ++ q), IList (p ++ q)).
Proof.
  intros x p q H. cbn [aug_remove]. rewrite (remove_first_split x p q H).
  replace (existsb _ (p ++ x :: q)) with true; [reflexivity|]. symmetry. apply existsb_exists. exists x.
  split; [apply in_elt | apply item_eqb_spec; reflexivity].
Qed.
Lemma remove_absent : forall x l, ~ In x l -> aug_remove (IList l) x = Ret (IList l, IList l).
Proof.
  intros x l H. cbn [aug_remove]. destruct (existsb _ l) eqn:E; [|reflexivity].
  apply existsb_exists in E. destruct E as [y [Hy E]]. apply item_eqb_spec in E. subst y. contradiction.
Qed.

(** ** Eigenvalues *)
Definition above (vals : list Z) (i j : nat) : Prop := (nth j vals 0 <= nth i vals 0)%Z.
Lemma insert_perm : forall vals i l, Permutation (insert_desc vals i l) (i :: l).
Proof.
  intros vals i l. induction l as [|j l IH]; [reflexivity|]. cbn [insert_desc].
  destruct (_ <? _)%Z; [reflexivity|]. rewrite IH. apply perm_swap.
Qed.
Lemma insert_sorted : forall vals i l, StronglySorted (above vals) l -> StronglySorted (above vals) (insert_desc vals i l).
Proof.
  intros vals i l H. induction H as [|j l Hl IH Hj]; [repeat constructor|]. cbn [insert_desc].
  destruct (Z.ltb_spec (nth j vals 0) (nth i vals 0))%Z as [C|C].
  - constructor; [constructor; assumption|]. constructor; [unfold above; lia|].
    eapply Forall_impl; [|exact Hj]. intros k Hk. unfold above in *. lia.
  - constructor; [exact IH|]. apply (Permutation_Forall (Permutation_sym (insert_perm vals i l))). constructor; [unfold above; lia | exact Hj].
Qed.
Lemma argsort_perm : forall vals, Permutation (argsort_desc vals) (seq 0 (length vals)).
Proof.
  intro vals. unfold argsort_desc. induction (seq 0 (length vals)) as [|i l IH]; [reflexivity|].
  cbn [fold_right]. rewrite insert_perm. apply perm_skip. exact IH.
Qed.
Lemma argsort_sorted : forall vals, StronglySorted (above vals) (argsort_desc vals).
Proof.
  intro vals. unfold argsort_desc. induction (seq 0 (length vals)) as [|i l IH]; [constructor|].
  cbn [fold_right]. apply insert_sorted. exact IH.
Qed.

Lemma picks_map : forall (A : Type) (d : A) l is, Forall (fun i => i < length l) is -> picks l is = Ret (map (fun i => nth i l d) is).
Proof.
  intros A d l is H. induction H as [|i is Hi H IH]; [reflexivity|]. cbn [picks map].
  rewrite (nth_error_nth' l d Hi), IH. reflexivity.
Qed.

Lemma map_seq_nth : forall (A : Type) (d : A) l, map (fun i => nth i l d) (seq 0 (length l)) = l.
Proof.
  intros A d l. induction l as [|x l IH]; [reflexivity|]. cbn [length seq map nth]. f_equal.
  rewrite <- seq_shift, map_map. exact IH.
Qed.

Lemma sorted_falling : forall vals is, StronglySorted (above vals) is -> falling (map (fun i => nth i vals 0%Z) is).
Proof.
  intros vals is H. induction H as [|k is H IH Hk]; intros i j x y Hij Hx Hy.
  - destruct i; discriminate Hx.
  - destruct i as [|i]; destruct j as [|j]; try lia; cbn [map nth_error] in *.
    + injection Hx as <-. apply nth_error_In in Hy. apply in_map_iff in Hy. destruct Hy as [m [<- Hm]].
      rewrite Forall_forall in Hk. exact (Hk m Hm).
    + apply (IH i j); try assumption. lia.
Qed.

Lemma combine_maps : forall (A B C : Type) (f : A -> B) (g : A -> C) l, combine (map f l) (map g l) = map (fun x => (f x, g x)) l.
Proof. intros. induction l as [|x l IH]; [reflexivity|]. cbn [map combine]. rewrite IH. reflexivity. Qed.

Lemma eigen_rows : forall vals vects, length vects = length vals ->
  exists rows, drel_eigen vals vects = Ret (map (fun p => fst p :: snd p) rows) /\
    Permutation rows (combine vals vects) /\ falling (map fst rows).
Proof.
  intros vals vects E.
  assert (F : Forall (fun i => i < length vals) (argsort_desc vals)).
  { apply (Permutation_Forall (Permutation_sym (argsort_perm vals))). apply Forall_forall. intros i Hi. apply in_seq in Hi. lia. }
  exists (map (fun i => (nth i vals 0%Z, nth i vects [])) (argsort_desc vals)). repeat split.
  - unfold drel_eigen. rewrite (picks_map Z 0%Z vals _ F). cbn [obind].
    rewrite (picks_map (list Z) [] vects) by (rewrite E; exact F). cbn [obind]. rewrite combine_maps. reflexivity.
  - rewrite (Permutation_map _ (argsort_perm vals)). rewrite <- combine_maps. rewrite map_seq_nth.
    rewrite <- E at 1. rewrite map_seq_nth. reflexivity.
  - rewrite map_map. cbn [fst]. apply sorted_falling. apply argsort_sorted.
Qed.

(** ** Strip *)
Lemma strip_nth : forall ls n r, drel_strip (map IList ls) n = Ret r ->
  length r = length ls /\ forall i l, nth_error ls i = Some l -> nth_error r i = nth_error l n /\ n < length l.
Proof.
  intros ls n. induction ls as [|m ls IH]; intros r H; cbn [map drel_strip] in H.
  - injection H as <-. split; [reflexivity|]. intros [|i] l E; discriminate E.
  - destruct (nth_error m n) as [x|] eqn:Ex; [|discriminate H].
    destruct (drel_strip (map IList ls) n) as [y|] eqn:Ey; [|discriminate H]. cbn [obind] in H. injection H as <-.
    destruct (IH y eq_refl) as [L R]. split; [cbn [length]; congruence|].
    intros [|i] l E; cbn [nth_error] in *.
    + injection E as <-. split; [symmetry; exact Ex | apply nth_error_Some; congruence].
    + exact (R i l E).
Qed.
Lemma strip_total : forall ls n, Forall (fun l => n < length l) ls -> exists r, drel_strip (map IList ls) n = Ret r.
Proof.
  intros ls n H. induction H as [|l ls Hl H [r IH]]; [exists []; reflexivity|]. cbn [map drel_strip].
  destruct (nth_error l n) as [x|] eqn:E; [|apply nth_error_None in E; lia]. rewrite IH. exists (x :: r). reflexivity.
Qed.
