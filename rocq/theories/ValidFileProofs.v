(** Files of valid blocks. *)
From Coq Require Import String Ascii List NArith ZArith Bool Permutation Lia.
From Verif Require Import PyBase PyFacts StarBlockModel StarBlockSpec CollectionModel CollectionSpec CollectionProofs CollectionProofs2 CollectionProofs3 ValidateModel ValidBlockModel ValidBlockSpec ValidBlockProofs
  ValidFileModel ValidFileSpec.
Import ListNotations.
Open Scope nat_scope.

Lemma same_get b b' k : same_block b b' -> get_item k b' = get_item k b.
Proof. destruct b as [d1 l1 o1 t1 v1 m1 u1], b' as [d2 l2 o2 t2 v2 m2 u2]. intros (E1 & E2 & E3 & E4). cbn [b_data b_loops b_order b_true] in *. subst. reflexivity. Qed.
Lemma same_keys b b' : same_block b b' -> b_keys b' = b_keys b.
Proof. destruct b as [d1 l1 o1 t1 v1 m1 u1], b' as [d2 l2 o2 t2 v2 m2 u2]. intros (E1 & E2 & E3 & E4). cbn [b_data b_loops b_order b_true] in *. subst. reflexivity. Qed.
Lemma same_sym b b' : same_block b b' -> same_block b' b.
Proof. intros (E1 & E2 & E3 & E4). repeat split; congruence. Qed.
Lemma same_trans a b c : same_block a b -> same_block b c -> same_block a c.
Proof. intros (E1 & E2 & E3 & E4) (F1 & F2 & F3 & F4). repeat split; congruence. Qed.
Lemma same_refl b : same_block b b.
Proof. repeat split. Qed.
Lemma copied_same b : same_block b (copied b).
Proof. repeat split. Qed.
Lemma same_ok d b b' : same_block b b' -> block_ok d b -> block_ok d b'.
Proof.
  intros S (t & H1 & H2 & H3 & H4). exists t. split.
  - unfold shows in *. rewrite (same_keys b b' S). clear -S H1. induction H1 as [|k kv ks t [A B] H1 IH]; constructor; [|exact IH]. split; [exact A|]. now rewrite (same_get b b' k S).
  - split; [exact H2|]. split; [|exact H4]. destruct S as (_ & E & _). now rewrite E.
Qed.
Lemma valid_copy_exact d b b' : loops_named b -> valid_copy d b = Ret b' <-> b' = copied b /\ block_ok d b.
Proof.
  intros H. unfold valid_copy. rewrite (valid_init_exact d (copied b) b') by exact H.
  split; intros [E K]; (split; [exact E|]); [apply (same_ok d (copied b)); [apply same_sym, copied_same|exact K]|apply (same_ok d b); [apply copied_same|exact K]].
Qed.

Lemma set_dict_get k b c x : CWF c -> In k (ckeys c) -> c_get x (set_dict (dset str_eqb k b (c_dict c)) c) = if str_eqb (lower x) k then Ret b else c_get x c.
Proof.
  intros W Hk. unfold c_get. cbn [c_lower c_dict set_dict]. destruct (str_eqb_spec (lower x) k) as [El|Nk].
  - rewrite El. assert (CollectionModel.smem k (c_lower c) = true) as -> by (apply CollectionProofs.smem_In; eapply Permutation_in; [symmetry; apply (cw_set _ W)|exact Hk]). now rewrite (dget_dset_eq _ str_eqb_spec).
  - now rewrite (dget_dset_neq _ str_eqb_spec) by congruence.
Qed.
Lemma get_dict k c : CWF c -> lower k = k -> dget str_eqb k (c_dict c) = match c_get k c with Ret b => Some b | Raise _ => None end.
Proof.
  intros W Hk. destruct (dget str_eqb k (c_dict c)) as [b|] eqn:E.
  - assert (c_get k c = Ret b) as -> by (apply (c_get_spec _ _ _ W); rewrite Hk; now apply (dget_In _ str_eqb_spec)). reflexivity.
  - destruct (c_get k c) as [b|e] eqn:G; [|reflexivity]. apply (c_get_spec _ _ _ W) in G. rewrite Hk in G. apply (dget_In_NoDup _ str_eqb_spec) in G; [congruence|exact (cw_keys _ W)].
Qed.
Lemma put_CWF k b c : CWF c -> In k (ckeys c) -> CWF (set_dict (dset str_eqb k b (c_dict c)) c) /\ ckeys (set_dict (dset str_eqb k b (c_dict c)) c) = ckeys c.
Proof.
  intros W Hk. assert (ckeys (set_dict (dset str_eqb k b (c_dict c)) c) = ckeys c) as E.
  { unfold ckeys. cbn [c_dict set_dict]. change (map fst (dset str_eqb k b (c_dict c))) with (dkeys (dset str_eqb k b (c_dict c))). rewrite (dkeys_dset _ str_eqb_spec).
    assert (dmem str_eqb k (c_dict c) = true) as ->; [|reflexivity]. unfold dmem. unfold ckeys in Hk. apply in_map_iff in Hk as ([k0 b0] & <- & Hk). apply (dget_In_NoDup _ str_eqb_spec) in Hk; [|exact (cw_keys _ W)]. cbn [fst]. now rewrite Hk. }
  split; [|exact E]. destruct W as [W1 W2 W3 W4 W5 W6 W7]. constructor.
  - now rewrite E.
  - intros x Hx. rewrite E in Hx. now apply W2.
  - rewrite E. exact W3.
  - rewrite E. exact W4.
  - rewrite E. exact W5.
  - intros p x Hx. rewrite E. exact (W6 p x Hx).
  - assert (forall x y, below (set_dict (dset str_eqb k b (c_dict c)) c) x y -> below c x y) as Bl.
    { intros x y Hx. induction Hx as [y H|y z H IH H2]; [apply below_one; exact H|]. eapply below_more; [exact IH|exact H2]. }
    intros x Hx. exact (W7 x (Bl x x Hx)).
Qed.
Definition settled (c c' : coll) : Prop := CWF c' /\ same_blocks c c'.
Lemma same_blocks_refl c : same_blocks c c.
Proof. unfold same_blocks. repeat (split; [reflexivity|]). intros k b H. exists b. split; [exact H|apply same_refl]. Qed.
Lemma same_blocks_trans a b c : same_blocks a b -> same_blocks b c -> same_blocks a c.
Proof.
  intros (A1 & A2 & A3 & A4 & A5 & A6 & A7 & A8 & A9) (B1 & B2 & B3 & B4 & B5 & B6 & B7 & B8 & B9). unfold same_blocks. repeat (split; [congruence|]).
  intros k x H. destruct (A9 k x H) as (y & H1 & S1). destruct (B9 k y H1) as (z & H2 & S2). exists z. split; [exact H2|exact (same_trans _ _ _ S1 S2)].
Qed.
Lemma make_valid_get d k c : CWF c -> lower k = k -> forall b, c_get k c = Ret b -> loops_named b ->
  (block_ok d b /\ exists c', make_valid d k c = (c', Ret tt) /\ CWF c' /\ same_blocks c c' /\ (forall x, c_get x c' = if str_eqb (lower x) k then Ret (copied b) else c_get x c))
  \/ (~ block_ok d b /\ exists e, make_valid d k c = (c, Raise e)).
Proof.
  intros W Hk b Hb Hn. unfold make_valid. rewrite (get_dict k c W Hk), Hb. destruct (valid_copy d b) as [b'|e] eqn:E.
  - left. apply (valid_copy_exact d b b' Hn) in E as [-> Ok]. split; [exact Ok|].
    assert (In k (ckeys c)) as Kc. { apply (c_get_spec _ _ _ W) in Hb. rewrite Hk in Hb. apply (in_map fst) in Hb. exact Hb. }
    eexists. split; [reflexivity|]. destruct (put_CWF k (copied b) c W Kc) as [W' Ek]. split; [exact W'|]. split.
    + split; [exact Ek|]. repeat (split; [reflexivity|]). intros x y Hx. rewrite set_dict_get by assumption. destruct (str_eqb_spec (lower x) k) as [El|_].
      * exists (copied b). split; [reflexivity|]. assert (y = b) as ->; [|apply copied_same]. apply (c_get_spec _ _ _ W) in Hb, Hx. rewrite El in Hx. rewrite Hk in Hb. apply (dget_In_NoDup _ str_eqb_spec) in Hb, Hx; try exact (cw_keys _ W). congruence.
      * exists y. split; [exact Hx|apply same_refl].
    + intros x. now apply set_dict_get.
  - right. split; [|now exists e]. intros Ok. assert (valid_copy d b = Ret (copied b)) by (apply (valid_copy_exact d b _ Hn); now split). congruence.
Qed.
Lemma same_named b b' : same_block b b' -> loops_named b -> loops_named b'.
Proof. intros (_ & E & _) H. unfold loops_named. now rewrite E. Qed.
Lemma same_file_named c c' : CWF c -> CWF c' -> same_blocks c c' -> file_named c -> file_named c'.
Proof.
  intros W W' S N k b H. destruct S as (E1 & _ & _ & _ & _ & _ & _ & _ & S). destruct (c_get k c) as [b0|e] eqn:G.
  - destruct (S k b0 G) as (b' & H1 & H2). rewrite H in H1. injection H1 as <-. apply (same_named b0); [exact H2|exact (N k b0 G)].
  - exfalso. apply (c_get_spec _ _ _ W') in H. apply (in_map fst) in H. change (map fst (c_dict c')) with (ckeys c') in H. rewrite E1 in H. apply in_map_iff in H as ([k1 b1] & Ek & H). cbn [fst] in Ek. subst k1.
    apply (c_get_spec c k b1 W) in H. congruence.
Qed.
Lemma make_all_ok d names : forall c, CWF c -> file_named c -> (forall k, In k names -> lower k = k /\ In k (ckeys c)) ->
  ((forall k b, In k names -> c_get k c = Ret b -> block_ok d b) /\ exists c', make_all_valid d names c = (c', Ret tt) /\ CWF c' /\ same_blocks c c')
  \/ ((exists k b, In k names /\ c_get k c = Ret b /\ ~ block_ok d b) /\ exists c' e, make_all_valid d names c = (c', Raise e)).
Proof.
  induction names as [|k r IH]; intros c W N Hin; cbn [make_all_valid].
  - left. split; [intros k b []|]. exists c. split; [reflexivity|]. split; [exact W|apply same_blocks_refl].
  - destruct (Hin k (or_introl eq_refl)) as [Hk Kc]. assert (exists b, c_get k c = Ret b) as [b Hb].
    { apply in_map_iff in Kc as ([k1 b1] & Ek & H). cbn [fst] in Ek. subst k1. exists b1. apply (c_get_spec _ _ _ W). now rewrite Hk. }
    destruct (make_valid_get d k c W Hk b Hb (N k b Hb)) as [(Ok & c1 & E & W1 & S1 & G1)|(No & e & E)]; rewrite E.
    + destruct (IH c1 W1 (same_file_named c c1 W W1 S1 N)) as [(Ok2 & c2 & E2 & W2 & S2)|((k2 & b2 & H1 & H2 & H3) & c2 & e2 & E2)].
      * intros x Hx. destruct (Hin x (or_intror Hx)) as [A B]. split; [exact A|]. destruct S1 as (-> & _). exact B.
      * left. split; [|exists c2; split; [exact E2|split; [exact W2|exact (same_blocks_trans _ _ _ S1 S2)]]].
        intros x y [<-|Hx] Hy; [congruence|]. destruct S1 as (_ & _ & _ & _ & _ & _ & _ & _ & S1). destruct (S1 x y Hy) as (y' & Hy' & Sy). apply (same_ok d y'); [now apply same_sym|]. exact (Ok2 x y' Hx Hy').
      * right. split; [|exists c2, e2; exact E2]. rewrite G1 in H2. destruct (str_eqb_spec (lower k2) k) as [El|_].
        -- injection H2 as <-. exfalso. apply H3. apply (same_ok d b); [apply copied_same|exact Ok].
        -- exists k2, b2. split; [now right|]. now split.
    + right. split; [|now exists c, e]. exists k, b. split; [now left|]. now split.
Qed.
Theorem valid_file_exact d c : CWF c -> visible_ok c -> file_named c ->
  (file_ok d c /\ exists c', valid_file d c = Ret c' /\ CWF c' /\ same_blocks c c' /\ file_ok d c') \/ (~ file_ok d c /\ exists e, valid_file d c = Raise e).
Proof.
  intros W V N. unfold valid_file. destruct (make_all_ok d (c_keys c) c W N) as [(Ok & c' & E & W' & S)|((k & b & H1 & H2 & H3) & c' & e & E)].
  - intros k Hk. assert (In k (ckeys c)) as Kc.
    { unfold visible_ok in V. destruct (c_scope c); [|eapply Permutation_in; [exact V|exact Hk]]. apply (proj2 V) in Hk as [i Hk]. apply (in_table c W). apply (in_map fst) in Hk. exact Hk. }
    split; [exact (cw_low _ W k Kc)|exact Kc].
  - left. split; [exact Ok|]. rewrite E. exists c'. split; [reflexivity|]. split; [exact W'|]. split; [exact S|].
    intros k b Hk Hb. destruct S as (E1 & _ & _ & E4 & _ & _ & _ & _ & S). unfold c_keys in Hk. rewrite E4 in Hk. destruct (c_get k c) as [b0|e0] eqn:G.
    + destruct (S k b0 G) as (b1 & H1 & H2). rewrite Hb in H1. injection H1 as <-. apply (same_ok d b0); [exact H2|]. exact (Ok k b0 Hk G).
    + exfalso. apply (c_get_spec _ _ _ W') in Hb. apply (in_map fst) in Hb. change (map fst (c_dict c')) with (ckeys c') in Hb. rewrite E1 in Hb. apply in_map_iff in Hb as ([k1 b1] & Ek & H). cbn [fst] in Ek. subst k1.
      apply (c_get_spec c k b1 W) in H. congruence.
  - right. split; [intros Ok; exact (H3 (Ok k b H1 H2))|]. rewrite E. now exists e.
Qed.
