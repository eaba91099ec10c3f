(** Adding blocks to a file of valid blocks. *)
From Coq Require Import String Ascii List NArith ZArith Bool Permutation Lia.
From Verif Require Import PyBase PyFacts StarBlockModel StarBlockSpec ValidateModel ValidBlockModel ValidBlockSpec ValidBlockProofs CollectionModel CollectionSpec CollectionProofs CollectionProofs2 CollectionProofs3 PropertiesCollection
  ValidFileModel ValidFileSpec ValidFileProofs.
Import ListNotations.
Open Scope nat_scope.

Lemma stored_same c b : same_block b (CollectionSpec.stored c b).
Proof.
  destruct b as [d1 l1 o1 t1 v1 m1 u1]. unfold CollectionSpec.stored. destruct (c_std c); [split; [|split; [|split]]; reflexivity| |split; [|split; [|split]]; reflexivity].
  unfold setmaxnamelength. destruct (_ && _)%bool; split; [|split; [|split]| |split; [|split]]; reflexivity.
Qed.
Lemma new_key name b f p c c' r : new_block name b f p c = (c', Ret r) -> ~ In (lower (fix_name f name)) (c_lower c) -> r = lower (fix_name f name).
Proof.
  intros H N. unfold new_block in H. destruct (match c_std c with StdCif => setmaxnamelength 75 b | _ => (b, Ret tt) end) as [b1 [[]|e]]; [|discriminate H].
  destruct (Nat.ltb 75 (length name)); [discriminate H|]. destruct (smem (lower (fix_name f name)) (c_lower c)) eqn:E; [apply smem_In in E; contradiction|]. now injection H as _ <-.
Qed.
Theorem new_valid d c name b f p : CWF c -> visible_ok c -> c_std c <> StdNone -> (forall q, p = Some q -> In (lower q) (ckeys c)) ->
  lower (fix_name f name) = name -> ~ In name (ckeys c) -> loops_named b ->
  (refuses c name b name p /\ valid_new_block d name b f p c = (c, Raise StarErr))
  \/ (~ refuses c name b name p /\ exists c', CWF c' /\ visible_ok c' /\ (exists b', c_get name c' = Ret b' /\ same_block b b')
      /\ entry_of c' name = Some (PC (fix_name f name) (option_map lower p)) /\ (forall x v, c_get x c = Ret v -> c_get x c' = Ret v) /\ c_order c' = c_order c ++ [name]
      /\ length (ckeys c') = Datatypes.S (length (ckeys c))
      /\ ((block_ok d b /\ valid_new_block d name b f p c = (c', Ret tt)) \/ (~ block_ok d b /\ exists e, valid_new_block d name b f p c = (c', Raise e)))).
Proof.
  intros W V S Hp Hn Nk Hl. destruct (C34_new_block c name b f p name W V S Hp (eq_sym Hn)) as [(R & E)|(NR & c1 & r & g & E & W1 & V1 & G1 & T1 & O1 & _ & _ & Hg & L1 & Or)].
  - left. split; [exact R|]. unfold valid_new_block. now rewrite E.
  - right. split; [exact NR|].
    assert (forall x, In x (c_lower c) -> In x (ckeys c)) as Lk by (intros x; apply Permutation_in; exact (cw_set _ W)).
    assert (r = name) as ->. { rewrite <- Hn. apply (new_key name b f p c c1 r E). rewrite Hn. intros H. apply Nk. now apply Lk. }
    assert (forall x, g x = x) as Gi.
    { intros x. destruct (str_eqb_spec (g x) x) as [H|H]; [exact H|]. destruct (Hg x H) as (_ & _ & _ & [i R]). exfalso. apply Nk. apply (in_table c W). apply (in_map fst) in R. exact R. }
    assert (forall x v, c_get x c = Ret v -> c_get x c1 = Ret v /\ lower x <> name) as O2.
    { intros x v H. apply (c_get_spec _ _ _ W) in H. destruct (O1 _ _ H) as [H1 H2]. rewrite Gi in H1, H2. split; [|exact H2].
      apply (c_get_spec _ _ _ W1) in H1. apply (c_get_spec _ _ _ W1). rewrite <- (lower_idem x). exact H1. }
    assert (c_order c1 = c_order c ++ [name]) as Or'. { rewrite Or. f_equal. rewrite <- (map_id (c_order c)) at 2. apply map_ext. exact Gi. }
    assert (entry_of c1 name = Some (PC (fix_name f name) (option_map lower p))) as T2. { rewrite T1. do 2 f_equal. destruct p; [|reflexivity]. cbn [option_map]. now rewrite Gi. }
    assert (lower name = name) as Hln by (rewrite <- Hn; apply lower_idem).
    unfold valid_new_block. rewrite E.
    destruct (make_valid_get d name c1 W1 Hln _ G1 (same_named _ _ (stored_same c b) Hl)) as [(Ok & c2 & E2 & W2 & S2 & G2)|(No & e & E2)]; rewrite E2.
    + exists c2. split; [exact W2|]. pose proof S2 as (A1 & A2 & A3 & A4 & A5 & A6 & A7 & A8 & A9). split.
      { unfold visible_ok in *. rewrite A4, A7, A1. destruct (c_scope c1); [|exact V1]. split; [apply V1|]. intros x. rewrite (proj2 V1 x). unfold root. now rewrite A3. }
      split; [exists (copied (CollectionSpec.stored c b)); split; [rewrite G2, Hln; destruct (str_eqb_spec name name); congruence|exact (same_trans _ _ _ (stored_same c b) (copied_same _))]|].
      split; [unfold entry_of; rewrite A3; exact T2|]. split.
      { intros x v Hx. destruct (O2 x v Hx) as [H1 H2]. rewrite G2. destruct (str_eqb_spec (lower x) name); [contradiction|exact H1]. }
      split; [congruence|]. split; [rewrite A1; exact L1|]. left. split; [|reflexivity]. apply (same_ok d (CollectionSpec.stored c b)); [apply same_sym, stored_same|exact Ok].
    + exists c1. split; [exact W1|]. split; [exact V1|]. split; [exists (CollectionSpec.stored c b); split; [exact G1|apply stored_same]|]. split; [exact T2|].
      split; [intros x v Hx; exact (proj1 (O2 x v Hx))|]. split; [exact Or'|]. split; [exact L1|]. right. split; [|now exists e].
      intros Ok. apply No. apply (same_ok d b); [apply stored_same|exact Ok].
Qed.
Theorem new_capitals d c name b f p : CWF c -> visible_ok c -> c_std c <> StdNone -> (forall q, p = Some q -> In (lower q) (ckeys c)) -> lower name <> name ->
  ~ refuses c name b (lower (fix_name f name)) p ->
  exists c' r, valid_new_block d name b f p c = (c', Raise KeyErr) /\ CWF c' /\ c_get r c' = Ret (CollectionSpec.stored c b).
Proof.
  intros W V S Hp Hn NR. destruct (C34_new_block c name b f p _ W V S Hp eq_refl) as [(R & E)|(_ & c1 & r & g & E & W1 & V1 & G1 & _)]; [contradiction|].
  exists c1, r. split; [|split; assumption]. unfold valid_new_block. rewrite E. unfold make_valid.
  destruct (dget str_eqb name (c_dict c1)) as [x|] eqn:D; [|reflexivity]. exfalso. apply (dget_In _ str_eqb_spec) in D. apply (in_map fst) in D. apply Hn. exact (cw_low _ W1 name D).
Qed.
Lemma new_visible name b f c c' r : new_block name b f None c = (c', Ret r) -> ~ In (lower (fix_name f name)) (c_lower c) -> c_vis c' = c_vis c ++ [r].
Proof.
  intros H N. pose proof (new_key name b f None c c' r H N) as ->. unfold new_block in H. destruct (match c_std c with StdCif => setmaxnamelength 75 b | _ => (b, Ret tt) end) as [b1 [[]|e]]; [|discriminate H].
  destruct (Nat.ltb 75 (length name)); [discriminate H|]. destruct (smem (lower (fix_name f name)) (c_lower c)) eqn:E; [apply smem_In in E; contradiction|]. injection H as <-. reflexivity.
Qed.
Theorem all_valid d c name b f c' : CWF c -> visible_ok c -> c_std c <> StdNone -> lower (fix_name f name) = name -> ~ In name (ckeys c) -> loops_named b ->
  file_ok d c -> valid_new_block d name b f None c = (c', Ret tt) -> file_ok d c'.
Proof.
  intros W V S Hn Nk Hl Ok E. destruct (new_valid d c name b f None W V S ltac:(discriminate) Hn Nk Hl) as [(_ & E')|(_ & c2 & W2 & V2 & (b' & G & Sb) & _ & O & _ & _ & [(Ob & E')|(_ & e & E')])]; rewrite E in E'; try discriminate E'.
  injection E' as <-. assert (c_vis c' = c_vis c ++ [name]) as Ev.
  { unfold valid_new_block in E. destruct (new_block name b f None c) as [c1 [r|e]] eqn:E1; [|discriminate E].
    assert (~ In (lower (fix_name f name)) (c_lower c)) as Nl. { rewrite Hn. intros H. apply Nk. eapply Permutation_in; [exact (cw_set _ W)|exact H]. }
    pose proof (new_visible name b f c c1 r E1 Nl) as Ev. rewrite (new_key name b f None c c1 r E1 Nl), Hn in Ev. rewrite <- Ev. unfold make_valid in E.
    destruct (dget str_eqb name (c_dict c1)) as [x|]; [|discriminate E]. destruct (valid_copy d x) as [y|e]; [|discriminate E]. now injection E as <-. }
  intros k x Hk Hx. unfold c_keys in Hk. rewrite Ev in Hk. apply in_app_iff in Hk as [Hk|[<-|[]]].
  - assert (In k (ckeys c)) as Kc.
    { unfold visible_ok in V. destruct (c_scope c); [|eapply Permutation_in; [exact V|exact Hk]]. apply (proj2 V) in Hk as [i Hi]. apply (in_table c W). apply (in_map fst) in Hi. exact Hi. }
    apply in_map_iff in Kc as ([k1 v] & Ek & Hv). cbn [fst] in Ek. subst k1. assert (c_get k c = Ret v) as Gv. { apply (c_get_spec _ _ _ W). rewrite (cw_low _ W k); [exact Hv|apply (in_map fst) in Hv; exact Hv]. }
    rewrite (O k v Gv) in Hx. injection Hx as <-. exact (Ok k v Hk Gv).
  - rewrite G in Hx. injection Hx as <-. exact (same_ok d b b' Sb Ob).
Qed.
