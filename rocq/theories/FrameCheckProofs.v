(** Validate on a file with save frames. *)
From Coq Require Import String Ascii List NArith ZArith Bool Permutation Lia.
From Verif Require Import PyBase PyFacts StarBlockModel StarBlockSpec ValidateModel ValidBlockModel ValidBlockSpec ReportModel ReportSpec ReportProofs CollectionModel CollectionSpec CollectionProofs CollectionProofs2 CollectionProofs3 FrameCheckModel FrameCheckSpec.
Import ListNotations.
Open Scope nat_scope.

Lemma dset_same_keys {V} k (v : V) l : In k (map fst l) -> map fst (dset str_eqb k v l) = map fst l.
Proof.
  induction l as [|[x w] l IH]; intros H; [destruct H|]. cbn [dset map fst] in *. destruct (str_eqb_spec k x) as [E|E]; cbn [map fst]; [reflexivity|]. f_equal. apply IH. destruct H; [congruence|assumption].
Qed.
Definition put_block (k : str) (b : block) (c : coll) : coll := set_dict (dset str_eqb (lower k) b (c_dict c)) c.
Lemma put_keys k b c : In (lower k) (ckeys c) -> ckeys (put_block k b c) = ckeys c.
Proof. intros H. unfold ckeys, put_block. cbn [set_dict c_dict]. now apply dset_same_keys. Qed.
Lemma put_CWF k b c : CWF c -> In (lower k) (ckeys c) -> CWF (put_block k b c).
Proof.
  intros W H. destruct W as [W1 W2 W3 W4 W5 W6 W7]. pose proof (put_keys k b c H) as E. constructor; rewrite ?E; auto. 
  intros x X. apply (W7 x). revert X. now apply below_ext.
Qed.
Lemma put_get k b c x : CWF c -> In (lower k) (ckeys c) -> c_get x (put_block k b c) = if str_eqb (lower x) (lower k) then Ret b else c_get x c.
Proof.
  intros W H. unfold c_get, put_block. cbn [set_dict c_dict c_lower]. destruct (str_eqb_spec (lower x) (lower k)) as [E|E].
  - rewrite E. rewrite (dget_dset_eq str_eqb str_eqb_spec). rewrite (proj2 (smem_In (lower k) (c_lower c))); [reflexivity|]. eapply Permutation_in; [symmetry; exact (cw_set _ W)|exact H].
  - rewrite (dget_dset_neq str_eqb str_eqb_spec) by congruence. reflexivity.
Qed.
Section Dic.
Context (d : vdic).
Lemma check_keys_ret keys : forall c c' vr nm, CWF c -> sound_blocks c -> NoDup keys -> (forall k, In k keys -> In k (ckeys c)) ->
  check_keys d keys c = (c', Ret (vr, nm)) -> CWF c' /\ c_vis c' = c_vis c /\ c_scope c' = c_scope c /\ checked d keys c c' vr nm.
Proof.
  induction keys as [|k keys IH]; intros c c' vr nm W S N K H; cbn [check_keys] in H.
  - injection H as <- <- <-. split; [assumption|]. split; [reflexivity|]. split; [reflexivity|]. constructor; auto; intros k b [].
  - inversion N as [|? ? Nk N']; subst. pose proof (K k (or_introl eq_refl)) as Hk. pose proof (cw_low _ W k Hk) as Lk.
    destruct (c_get k c) as [b|e] eqn:G; [|discriminate H]. destruct (S k b G) as [Wb Nb].
    destruct (check_one_known d b Wb) as (b' & Q & E). rewrite E in H. destruct (block_checks d b') as [x|e] eqn:C; [|discriminate H].
    change (set_dict (dset str_eqb (lower k) b' (c_dict c)) c) with (put_block k b' c) in H.
    assert (In (lower k) (ckeys c)) as Hl by now rewrite Lk.
    pose proof (put_CWF k b' c W Hl) as W1. pose proof (put_keys k b' c Hl) as Ek. pose proof (fun y => put_get k b' c y W Hl) as Eg.
    destruct (check_keys d keys (put_block k b' c)) as [c2 o2] eqn:R. destruct o2 as [[vr0 nm0]|e]; [|discriminate H]. cbn [obind fst snd] in H. injection H as <- <- <-.
    destruct (IH (put_block k b' c) c2 vr0 nm0 W1) as (W2 & V2 & Sc2 & [R1 R2 R3 R4 R5]).
    + intros y by_ Hy. rewrite Eg in Hy. destruct (str_eqb (lower y) (lower k)); [|now apply (S y)]. injection Hy as <-. split; [exact (k_wf _ _ _ Q)|exact (known_no_empty d b b' Nb Q)].
    + assumption.
    + intros y Hy. rewrite Ek. apply K. now right.
    + exact R.
    + split; [assumption|]. split; [exact V2|]. split; [exact Sc2|]. assert (c_get k c2 = Ret b') as Gk.
      { rewrite R4; [|now rewrite Ek|exact Nk]. rewrite Eg. destruct (str_eqb_spec (lower k) (lower k)) as [_|X]; [reflexivity|now contradiction X]. }
      constructor.
      * cbn [map fst]. now rewrite R1.
      * cbn [map fst]. now rewrite R2.
      * intros y by_ [<-|Hy] Gy.
        -- rewrite G in Gy. injection Gy as <-. exists b', x, (missing d b). split; [exact Gk|]. split; [exact Q|]. split; [now left|]. split; [exact C|]. split; [apply verdict_ok; [exact (known_no_empty d b b' Nb Q)|exact C]|]. split; [now left|now apply missing_unknown].
        -- assert (lower y <> lower k) as Ne. { rewrite Lk. rewrite (cw_low _ W y (K y (or_intror Hy))). intros X. subst. contradiction. }
           destruct (R3 y by_ Hy) as (b2 & r & l & A1 & A2 & A3 & A4 & A5 & A6 & A7). { rewrite Eg. destruct (str_eqb_spec (lower y) (lower k)); [contradiction|exact Gy]. }
           exists b2, r, l. split; [exact A1|]. split; [exact A2|]. split; [now right|]. split; [exact A4|]. split; [exact A5|]. split; [now right|exact A7].
      * intros y Hy Ny. rewrite R4; [|now rewrite Ek|intros X; apply Ny; now right]. rewrite Eg. destruct (str_eqb_spec (lower y) (lower k)) as [X|X]; [|reflexivity]. exfalso. apply Ny. left. rewrite Lk, (cw_low _ W y Hy) in X. congruence.
      * destruct R5 as (A & B & D). rewrite A, Ek. split; [reflexivity|]. now split.
Qed.
(** It fails only where a check does. *)
Lemma check_keys_raise keys : forall c c' e, CWF c -> sound_blocks c -> NoDup keys -> (forall k, In k keys -> In k (ckeys c)) ->
  check_keys d keys c = (c', Raise e) -> exists k b b', In k keys /\ c_get k c = Ret b /\ only_known d b b' /\ block_checks d b' = Raise e.
Proof.
  induction keys as [|k keys IH]; intros c c' e W S N K H; cbn [check_keys] in H; [discriminate H|].
  inversion N as [|? ? Nk N']; subst. pose proof (K k (or_introl eq_refl)) as Hk. pose proof (cw_low _ W k Hk) as Lk.
  destruct (c_get k c) as [b|e0] eqn:G.
  2:{ exfalso. unfold ckeys in Hk. apply in_map_iff in Hk as ([k' b] & Ek & Hk). cbn [fst] in Ek. subst k'. assert (c_get k c = Ret b) as X by (apply (c_get_spec c k b W); now rewrite Lk). congruence. }
  destruct (S k b G) as [Wb Nb]. destruct (check_one_known d b Wb) as (b' & Q & E). rewrite E in H.
  destruct (block_checks d b') as [x|e0] eqn:C.
  - change (set_dict (dset str_eqb (lower k) b' (c_dict c)) c) with (put_block k b' c) in H. assert (In (lower k) (ckeys c)) as Hl by now rewrite Lk.
    pose proof (fun y => put_get k b' c y W Hl) as Eg. destruct (check_keys d keys (put_block k b' c)) as [c2 o2] eqn:R. destruct o2 as [[vr0 nm0]|e1]; [discriminate H|]. injection H as <- <-.
    destruct (IH (put_block k b' c) c2 e1 (put_CWF k b' c W Hl)) as (y & by_ & b2 & A1 & A2 & A3 & A4); auto.
    + intros y by_ Hy. rewrite Eg in Hy. destruct (str_eqb (lower y) (lower k)); [|now apply (S y)]. injection Hy as <-. split; [exact (k_wf _ _ _ Q)|exact (known_no_empty d b b' Nb Q)].
    + intros y Hy. rewrite (put_keys k b' c Hl). apply K. now right.
    + exists y, by_, b2. split; [now right|]. split; [|now split]. rewrite Eg in A2. destruct (str_eqb_spec (lower y) (lower k)) as [X|X]; [|exact A2]. exfalso. rewrite Lk, (cw_low _ W y (K y (or_intror A1))) in X. subst. contradiction.
  - injection H as <- <-. exists k, b, b'. split; [now left|]. split; [exact G|]. split; [exact Q|exact C].
Qed.
End Dic.
