(** Lemmas about the shared vocabulary of PyBase.v. *)
From Coq Require Import String Ascii List NArith ZArith Bool Lia Permutation.
From Verif Require Import PyBase.
Import ListNotations.

Lemma str_eqb_spec : forall a b, reflect (a = b) (str_eqb a b).
Proof.
  induction a as [|x a IH]; destruct b as [|y b]; cbn; try (constructor; congruence).
  destruct (N.eqb_spec x y) as [->|n]; cbn.
  - destruct (IH b) as [->|n]; constructor; congruence.
  - constructor; congruence.
Qed.

Lemma str_eqb_refl a : str_eqb a a = true.
Proof. destruct (str_eqb_spec a a); congruence. Qed.

Lemma lower_char_idem c : lower_char (lower_char c) = lower_char c.
Proof.
  unfold lower_char.
  destruct ((65 <=? c) && (c <=? 90))%N eqn:E; [|rewrite E; reflexivity].
  apply andb_true_iff in E as [A B]. apply N.leb_le in A, B.
  destruct ((65 <=? c + 32) && (c + 32 <=? 90))%N eqn:F; [|reflexivity].
  apply andb_true_iff in F as [C D]. apply N.leb_le in C, D. lia.
Qed.

Lemma lower_idem s : lower (lower s) = lower s.
Proof. unfold lower. rewrite map_map. apply map_ext. intros; apply lower_char_idem. Qed.

Lemma lower_length s : length (lower s) = length s.
Proof. apply map_length. Qed.

Section ListFacts.
  Context {A : Type} (eqb : A -> A -> bool).
  Hypothesis eqb_spec : forall x y, reflect (x = y) (eqb x y).

  Lemma eqb_refl' x : eqb x x = true.
  Proof. destruct (eqb_spec x x); congruence. Qed.

  Lemma eqb_neq x y : x <> y -> eqb x y = false.
  Proof. destruct (eqb_spec x y); congruence. Qed.

  Lemma mem_In x l : mem eqb x l = true <-> In x l.
  Proof.
    unfold mem. rewrite existsb_exists. split.
    - intros (y & Hy & E). destruct (eqb_spec x y); subst; congruence.
    - intros H. exists x. split; [assumption|apply eqb_refl'].
  Qed.

  Lemma mem_false x l : mem eqb x l = false <-> ~ In x l.
  Proof.
    rewrite <- mem_In. destruct (mem eqb x l); split; congruence.
  Qed.

  Lemma remove1_notin x l : ~ In x l -> remove1 eqb x l = l.
  Proof.
    induction l as [|y l IH]; cbn; [reflexivity|]. intros H.
    destruct (eqb_spec x y) as [->|n]; [exfalso; auto|].
    f_equal. auto.
  Qed.

  Lemma remove1_perm x l : In x l -> Permutation (x :: remove1 eqb x l) l.
  Proof.
    induction l as [|y l IH]; cbn; [contradiction|]. intros H.
    destruct (eqb_spec x y) as [->|n]; [reflexivity|].
    destruct H as [H|H]; [congruence|].
    rewrite perm_swap. constructor. auto.
  Qed.

  Lemma remove1_incl x l y : In y (remove1 eqb x l) -> In y l.
  Proof.
    induction l as [|z l IH]; cbn; [auto|].
    destruct (eqb_spec x z); cbn; intuition.
  Qed.

  Lemma remove1_in_neq x l y : y <> x -> In y l -> In y (remove1 eqb x l).
  Proof.
    induction l as [|z l IH]; cbn; [auto|]. intros N [->|H].
    - destruct (eqb_spec x y); [congruence|left; reflexivity].
    - destruct (eqb_spec x z); [assumption|right; auto].
  Qed.

  Lemma remove1_NoDup x l : NoDup l -> NoDup (remove1 eqb x l).
  Proof.
    induction 1 as [|y l H D IH]; cbn; [constructor|].
    destruct (eqb_spec x y); [assumption|].
    constructor; [|assumption]. intro. apply H. eapply remove1_incl; eauto.
  Qed.

  Lemma remove1_NoDup_notin x l : NoDup l -> ~ In x (remove1 eqb x l).
  Proof.
    induction 1 as [|y l H D IH]; cbn; [auto|].
    destruct (eqb_spec x y) as [->|n]; [assumption|].
    cbn. intuition.
  Qed.

  Lemma remove1_NoDup_filter x l :
    NoDup l -> remove1 eqb x l = filter (fun y => negb (eqb x y)) l.
  Proof.
    induction 1 as [|y l H D IH]; cbn; [reflexivity|].
    destruct (eqb_spec x y) as [->|n]; cbn; [|f_equal; assumption].
    rewrite <- IH. symmetry. now apply remove1_notin.
  Qed.

  Lemma remove1_app_r x l r : ~ In x l -> remove1 eqb x (l ++ r) = l ++ remove1 eqb x r.
  Proof.
    induction l as [|y l IH]; cbn; [reflexivity|]. intros H.
    destruct (eqb_spec x y) as [->|n]; [exfalso; auto|]. f_equal; auto.
  Qed.

  Lemma remove1_app_l x l r : In x l -> remove1 eqb x (l ++ r) = remove1 eqb x l ++ r.
  Proof.
    induction l as [|y l IH]; cbn; [contradiction|]. intros H.
    destruct (eqb_spec x y) as [->|n]; [reflexivity|]. cbn. f_equal.
    apply IH. destruct H; congruence.
  Qed.

  Lemma index_of_Some x l i :
    index_of eqb x l = Some i -> nth_error l i = Some x /\ ~ In x (firstn i l).
  Proof.
    revert i. induction l as [|y l IH]; cbn; [discriminate|]. intros i.
    destruct (eqb_spec x y) as [->|n].
    - intros [= <-]. cbn. auto.
    - destruct (index_of eqb x l) as [j|]; cbn; [|discriminate].
      intros [= <-]. cbn. destruct (IH j eq_refl) as [H1 H2]. split; [assumption|].
      intros [H|H]; [congruence|auto].
  Qed.

  Lemma index_of_None x l : index_of eqb x l = None <-> ~ In x l.
  Proof.
    induction l as [|y l IH]; cbn; [intuition|].
    destruct (eqb_spec x y) as [->|n].
    - split; [discriminate|intros H; exfalso; auto].
    - destruct (index_of eqb x l); cbn.
      + split; [discriminate|]. intros H. exfalso.
        assert (~ In x l) by (intro; apply H; auto). apply IH in H0. discriminate.
      + split; [|reflexivity]. intros _ [H|H]; [congruence|]. now apply IH.
  Qed.
End ListFacts.

Lemma py_insert_perm {A} pos (x : A) l : Permutation (py_insert pos x l) (x :: l).
Proof.
  unfold py_insert. generalize (clamp_pos (length l) pos) as p. intros p.
  symmetry. transitivity (x :: firstn p l ++ skipn p l).
  - now rewrite firstn_skipn.
  - apply Permutation_middle.
Qed.

Lemma py_insert_nth {A} pos (x : A) l :
  nth_error (py_insert pos x l) (clamp_pos (length l) pos) = Some x.
Proof.
  unfold py_insert.
  assert (H : length (firstn (clamp_pos (length l) pos) l) = clamp_pos (length l) pos).
  { apply firstn_length_le. unfold clamp_pos. apply Nat.le_min_l. }
  rewrite nth_error_app2 by (rewrite H; apply Nat.le_refl).
  rewrite H, Nat.sub_diag. reflexivity.
Qed.

Section DictFacts.
  Context {K V : Type} (eqb : K -> K -> bool).
  Hypothesis eqb_spec : forall x y, reflect (x = y) (eqb x y).
  Notation dget := (dget (V:=V) eqb).
  Notation dset := (dset (V:=V) eqb).
  Notation ddel := (ddel (V:=V) eqb).

  Lemma dget_dset_eq k v d : dget k (dset k v d) = Some v.
  Proof.
    induction d as [|[k' v'] d IH]; cbn.
    - now rewrite (eqb_refl' eqb eqb_spec).
    - destruct (eqb_spec k k') as [->|n]; cbn.
      + now rewrite (eqb_refl' eqb eqb_spec).
      + now rewrite (eqb_neq eqb eqb_spec).
  Qed.

  Lemma dget_dset_neq k k' v d : k' <> k -> dget k' (dset k v d) = dget k' d.
  Proof.
    intros N. induction d as [|[k2 v2] d IH]; cbn.
    - now rewrite (eqb_neq eqb eqb_spec).
    - destruct (eqb_spec k k2) as [->|n]; cbn.
      + now rewrite (eqb_neq eqb eqb_spec).
      + destruct (eqb_spec k' k2); auto.
  Qed.

  Lemma dget_None k d : dget k d = None <-> ~ In k (dkeys d).
  Proof.
    induction d as [|[k' v'] d IH]; cbn; [intuition|].
    destruct (eqb_spec k k') as [->|n].
    - split; [discriminate|intros H; exfalso; auto].
    - rewrite IH. split; [intros H [E|E]; [congruence|auto]|auto].
  Qed.

  Lemma dget_In k v d : dget k d = Some v -> In (k, v) d.
  Proof.
    induction d as [|[k' v'] d IH]; cbn; [discriminate|].
    destruct (eqb_spec k k') as [->|n]; [intros [= ->]; auto|auto].
  Qed.

  Lemma dget_In_NoDup k v d : NoDup (dkeys d) -> In (k, v) d -> dget k d = Some v.
  Proof.
    induction d as [|[k' v'] d IH]; cbn; [contradiction|].
    inversion 1 as [|? ? H1 H2]; subst. intros [[= -> ->]|H3].
    - now rewrite (eqb_refl' eqb eqb_spec).
    - destruct (eqb_spec k k') as [->|n]; [|auto].
      exfalso. apply H1. unfold dkeys. now apply (in_map fst) in H3.
  Qed.

  Lemma dmem_In k (d : list (K * V)) : dmem eqb k d = true <-> In k (dkeys d).
  Proof.
    unfold dmem. destruct (dget k d) eqn:E.
    - split; [|reflexivity]. intros _. apply dget_In in E. now apply (in_map fst) in E.
    - apply dget_None in E. split; [discriminate|contradiction].
  Qed.

  Lemma dmem_false k (d : list (K * V)) : dmem eqb k d = false <-> ~ In k (dkeys d).
  Proof. rewrite <- dmem_In. destruct (dmem eqb k d); split; congruence. Qed.

  Lemma dkeys_dset k v d :
    dkeys (dset k v d) = if dmem eqb k d then dkeys d else dkeys d ++ [k].
  Proof.
    unfold dmem. induction d as [|[k' v'] d IH]; cbn; [reflexivity|].
    destruct (eqb_spec k k') as [->|n]; cbn; [reflexivity|].
    unfold dkeys in *. rewrite IH. now destruct (dget k d).
  Qed.

  Lemma dkeys_ddel k d : dkeys (ddel k d) = remove1 eqb k (dkeys d).
  Proof.
    induction d as [|[k' v'] d IH]; cbn; [reflexivity|].
    destruct (eqb_spec k k'); cbn; [reflexivity|]. f_equal. apply IH.
  Qed.

  Lemma ddel_notin k d : ~ In k (dkeys d) -> ddel k d = d.
  Proof.
    induction d as [|[k' v'] d IH]; cbn; [reflexivity|]. intros H.
    destruct (eqb_spec k k') as [->|n]; [exfalso; auto|]. f_equal; auto.
  Qed.

  Lemma dget_ddel_neq k k' d : k' <> k -> dget k' (ddel k d) = dget k' d.
  Proof.
    intros N. induction d as [|[k2 v2] d IH]; cbn; [reflexivity|].
    destruct (eqb_spec k k2) as [->|n]; cbn.
    - now rewrite (eqb_neq eqb eqb_spec).
    - destruct (eqb_spec k' k2); auto.
  Qed.

  Lemma dget_ddel_eq k d : NoDup (dkeys d) -> dget k (ddel k d) = None.
  Proof.
    intros H. apply dget_None. rewrite dkeys_ddel.
    now apply (remove1_NoDup_notin eqb eqb_spec).
  Qed.

  Lemma dset_same k v d : dget k d = Some v -> dset k v d = d.
  Proof.
    induction d as [|[k' v'] d IH]; cbn; [discriminate|].
    destruct (eqb_spec k k') as [->|n]; [intros [= ->]; reflexivity|].
    intros; f_equal; auto.
  Qed.

  Lemma dget_app k d e :
    dget k (d ++ e) = match dget k d with Some v => Some v | None => dget k e end.
  Proof.
    induction d as [|[k' v'] d IH]; cbn; [reflexivity|].
    now destruct (eqb_spec k k').
  Qed.

  Lemma NoDup_dset k v d : NoDup (dkeys d) -> NoDup (dkeys (dset k v d)).
  Proof.
    intros H. rewrite dkeys_dset. destruct (dmem eqb k d) eqn:E; [assumption|].
    apply dmem_false in E.
    apply (Permutation_NoDup (l := k :: dkeys d)).
    - apply Permutation_cons_append.
    - now constructor.
  Qed.

  Lemma NoDup_ddel k d : NoDup (dkeys d) -> NoDup (dkeys (ddel k d)).
  Proof. intros H. rewrite dkeys_ddel. now apply remove1_NoDup. Qed.

  Lemma dset_values k v d :
    NoDup (dkeys d) -> In k (dkeys d) ->
    exists l1 l2 v0, d = l1 ++ (k, v0) :: l2 /\ dset k v d = l1 ++ (k, v) :: l2
                     /\ dget k d = Some v0 /\ ~ In k (dkeys l1) /\ ~ In k (dkeys l2).
  Proof.
    induction d as [|[k' v'] d IH]; cbn; [contradiction|].
    inversion 1 as [|? ? H1 H2]; subst. intros H3.
    destruct (eqb_spec k k') as [->|n].
    - exists [], d, v'. repeat split; auto.
    - destruct H3 as [E|H3]; [congruence|].
      destruct (IH H2 H3) as (l1 & l2 & v0 & E1 & E2 & E3 & E4 & E5).
      exists ((k', v') :: l1), l2, v0. subst d. cbn in *. rewrite E2.
      repeat split; auto. intros [E|E]; [congruence|auto].
  Qed.

  Lemma ddel_split k d :
    NoDup (dkeys d) -> In k (dkeys d) ->
    exists l1 l2 v0, d = l1 ++ (k, v0) :: l2 /\ ddel k d = l1 ++ l2 /\ dget k d = Some v0.
  Proof.
    induction d as [|[k' v'] d IH]; cbn; [contradiction|].
    inversion 1 as [|? ? H1 H2]; subst. intros H3.
    destruct (eqb_spec k k') as [->|n].
    - exists [], d, v'. repeat split; auto.
    - destruct H3 as [E|H3]; [congruence|].
      destruct (IH H2 H3) as (l1 & l2 & v0 & E1 & E2 & E3).
      exists ((k', v') :: l1), l2, v0. subst d. cbn in *. rewrite E2. auto.
  Qed.
End DictFacts.

Lemma NoDup_app_iff {A} (l r : list A) :
  NoDup (l ++ r) <-> NoDup l /\ NoDup r /\ (forall x, In x l -> ~ In x r).
Proof.
  induction l as [|a l IH]; cbn.
  - split; [intros H; repeat split; auto; constructor|tauto].
  - split.
    + inversion 1 as [|? ? H1 H2]; subst. apply IH in H2 as (A1 & A2 & A3).
      repeat split; auto.
      * constructor; auto. intro; apply H1, in_or_app; auto.
      * intros x [->|Hx]; [intro; apply H1, in_or_app; auto|auto].
    + intros (A1 & A2 & A3). inversion A1 as [|? ? H1 H2]; subst.
      constructor.
      * rewrite in_app_iff. intros [H|H]; [auto|]. eapply A3; eauto.
      * apply IH. repeat split; auto.
Qed.

Lemma filter_perm {A} (f : A -> bool) l r :
  Permutation l r -> Permutation (filter f l) (filter f r).
Proof.
  induction 1; cbn.
  - constructor.
  - destruct (f x); [constructor|]; assumption.
  - destruct (f x), (f y); try reflexivity. apply perm_swap.
  - etransitivity; eassumption.
Qed.

Lemma filter_all {A} (f : A -> bool) l : (forall x, In x l -> f x = true) -> filter f l = l.
Proof.
  induction l as [|a l IH]; cbn; [reflexivity|]. intros H.
  rewrite (H a) by auto. f_equal. apply IH. auto.
Qed.

Lemma filter_none {A} (f : A -> bool) l : (forall x, In x l -> f x = false) -> filter f l = [].
Proof.
  induction l as [|a l IH]; cbn; [reflexivity|]. intros H.
  rewrite (H a) by auto. apply IH. auto.
Qed.
