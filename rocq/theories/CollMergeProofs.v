(** Proofs about selections and merges of collections. *)
From Coq Require Import String Ascii List NArith ZArith Bool Permutation Lia.
From Verif Require Import PyBase PyFacts StarBlockModel ScanModel CollectionModel CollectionSpec CollectionProofs CollectionProofs2 CollectionProofs3 MergeModel CollMergeModel CollMergeSpec.
Import ListNotations.
Open Scope nat_scope.

(** ** Merging disjoint collections *)
Lemma first_match_none items : first_match None items = None.
Proof. induction items as [|t r IH]; [reflexivity|]. cbn [first_match att_match]. now rewrite IH. Qed.

Lemma new_block_absent c name b p : CWF c -> ~ In (lower name) (ckeys c) -> fine_name name -> fine_block (c_std c) b ->
  (forall q, p = Some q -> In (lower q) (ckeys c)) ->
  new_block name b true p c = (added (lower name) name p (match c_std c with StdCif => fst (setmaxnamelength 75 b) | _ => b end) c, Ret (lower name)).
Proof.
  intros W N (L & F) FB Hp. unfold new_block.
  assert (M : (match c_std c with StdCif => setmaxnamelength 75 b | _ => (b, Ret tt) end)
    = (match c_std c with StdCif => fst (setmaxnamelength 75 b) | _ => b end, Ret tt)).
  { destruct (c_std c) eqn:S; try reflexivity. destruct (setmax_75 b) as [E|[E (x & I & X)]]; [exact E|].
    exfalso. specialize (FB eq_refl x I). lia. }
  rewrite M. replace (Nat.ltb 75 (length name)) with false by (symmetry; apply Nat.ltb_ge; lia).
  rewrite F. replace (smem (lower name) (c_lower c)) with false by (symmetry; apply smem_false; now rewrite (in_set c W)).
  now rewrite (add_effect c W (lower name) name p _ N Hp).
Qed.

Definition key_att (att : option str) (key : str) (n : coll) : outcome (option value) :=
  match att with None => Ret None | Some a => att_of a key n end.
Lemma merge_keys_disjoint mode parent idb att n : CWF n -> plain_ids n ->
  (forall k e b, In (k, e) (c_child n) -> In (k, b) (c_dict n) -> fine_name (pc_id e) /\ pc_id e <> idb) ->
  forall l c items base, CWF c -> visible_ok c ->
  (forall a, In a l -> In a (c_child n)) -> NoDup (map fst l) -> (forall k, In k (map fst l) -> ~ In k (ckeys c)) ->
  (forall k b, In (k, b) (c_dict n) -> fine_block (c_std c) b) ->
  (forall q, parent = Some q -> In (lower q) (ckeys c)) ->
  (forall l1 k e p l2, l = l1 ++ (k, e) :: l2 -> pc_parent e = Some p -> In p (ckeys c) \/ In p (map fst l1)) ->
  (forall k e, In (k, e) l -> exists av, key_att att (pc_id e) n = Ret av /\ first_match av items = None) ->
  exists c' l', merge_keys mode parent idb att (map (fun a => pc_id (snd a)) l) items base n c = (c', Ret tt)
    /\ CWF c' /\ visible_ok c' /\ c_std c' = c_std c /\ c_scope c' = c_scope c /\ c_uni c' = c_uni c
    /\ c_dict c' = c_dict c ++ l' /\ Forall2 (fun a kb => fst kb = fst a /\ exists b, In (fst a, b) (c_dict n) /\ snd kb = stored c b) l l'
    /\ c_child c' = c_child c ++ map (fun a => (fst a, PC (pc_id (snd a)) (given_parent parent (pc_parent (snd a))))) l
    /\ c_order c' = c_order c ++ map fst l.
Proof.
  intros Wn Pn Fn. induction l as [|[k e] r IH]; intros c items base W V Sub Nd Dis FB Hp PF Un.
  - exists c, []. cbn [map merge_keys]. rewrite !app_nil_r. repeat (split; [try reflexivity; assumption|]).
    split; [constructor|]. split; reflexivity.
  - cbn [map merge_keys snd]. pose proof (Sub (k, e) (or_introl eq_refl)) as Ik. pose proof (Pn k e Ik) as Lk.
    assert (Kn : In k (ckeys n)). { eapply Permutation_in; [apply (cw_table _ Wn)|]. apply (in_map fst) in Ik. exact Ik. }
    unfold ckeys in Kn. apply in_map_iff in Kn as ((k0, b) & E0 & Ib). cbn [fst] in E0. subst k0.
    destruct (Fn k e b Ik Ib) as (Fname & Nid).
    assert (Nk : ~ In k (ckeys c)) by (apply Dis; now left).
    destruct (str_eqb_spec (pc_id e) idb) as [X|_]; [contradiction|].
    destruct (Un k e (or_introl eq_refl)) as (av & Ea & Ef). unfold key_att in Ea. rewrite Ea, Ef.
    replace (c_has (pc_id e) c) with false.
    2:{ symmetry. apply smem_false. rewrite Lk. intros H. apply Nk. now apply (visible_key c k W V). }
    cbn [negb orb].
    assert (Gp : get_parent (pc_id e) n = Ret (pc_parent e)).
    { unfold get_parent. rewrite Lk.
      rewrite (dget_In_NoDup str_eqb str_eqb_spec k e (c_child n)) by (try apply (table_NoDup n Wn); assumption). reflexivity. }
    assert (Gb : c_get (pc_id e) n = Ret b) by (apply c_get_spec; [assumption|]; now rewrite Lk).
    rewrite Gp, Gb. cbn [obind].
    set (p := match pc_parent e with None => parent | Some _ => pc_parent e end).
    assert (Pp : forall q, p = Some q -> In (lower q) (ckeys c)).
    { intros q E. unfold p in E. destruct (pc_parent e) as [q0|] eqn:Pe; [|now apply Hp].
      injection E as ->. destruct (PF [] k e q r eq_refl Pe) as [H|[]]. now rewrite (cw_low _ W). }
    assert (Nk' : ~ In (lower (pc_id e)) (ckeys c)) by now rewrite Lk.
    assert (Lpe : option_map lower p = given_parent parent (pc_parent e)).
    { unfold p, given_parent. destruct (pc_parent e) as [q|] eqn:Pe; [|reflexivity]. cbn. f_equal.
      apply (cw_low _ W). destruct (PF [] k e q r eq_refl Pe) as [H|[]]. exact H. }
    rewrite (new_block_absent c (pc_id e) b p W Nk' Fname (FB k b Ib) Pp).
    set (b' := match c_std c with StdCif => fst (setmaxnamelength 75 b) | _ => b end).
    rewrite Lk. clear Nk'.
    assert (Llk : lower k = k) by (rewrite <- Lk; apply lower_idem).
    set (c1 := added k (pc_id e) p b' c).
    assert (W1 : CWF c1) by (apply added_CWF; assumption).
    assert (V1 : visible_ok c1) by (apply added_visible; assumption).
    assert (K1 : ckeys c1 = ckeys c ++ [k]) by (unfold ckeys, c1, added; cbn [c_dict]; rewrite map_app; reflexivity).
    cbn [map fst] in Nd. apply NoDup_cons_iff in Nd as (Nk2 & Nd2).
    destruct (IH c1 items base W1 V1) as (c2 & l2 & E2 & W2 & V2 & S2 & Sc2 & U2 & D2 & F2 & T2 & O2).
    + intros a I. apply Sub. now right.
    + exact Nd2.
    + intros x I. rewrite K1, in_app_iff. intros [H|[H|[]]]; [|subst x; contradiction]. apply (Dis x); [now right|exact H].
    + exact FB.
    + intros q E. rewrite K1. apply in_or_app. left. now apply Hp.
    + intros l1 k1 e1 p1 l3 El Pe. rewrite K1. destruct (PF ((k, e) :: l1) k1 e1 p1 l3) as [H|H].
      * cbn. now rewrite El.
      * exact Pe.
      * left. apply in_or_app. now left.
      * cbn [map fst] in H. destruct H as [->|H]; [left; apply in_or_app; right; now left|now right].
    + intros k1 e1 I1. apply (Un k1 e1). now right.
    + exists c2, ((k, stored c b) :: l2). split; [exact E2|]. split; [exact W2|]. split; [exact V2|].
      split; [exact S2|]. split; [exact Sc2|]. split; [exact U2|]. split; [|split; [|split]].
      * rewrite D2. unfold c1, added. cbn [c_dict]. rewrite <- app_assoc. reflexivity.
      * constructor; [split; [reflexivity|]; exists b; now split|]. exact F2.
      * rewrite T2. unfold c1, added. cbn [c_child map fst snd]. rewrite Lpe, <- app_assoc. reflexivity.
      * rewrite O2. unfold c1, added. cbn [c_order map fst]. rewrite <- app_assoc. reflexivity.
Qed.

Definition own_atts (att : option str) (c : coll) : outcome (list (option value)) :=
  match att with None => Ret (map (fun k => Some (VStr k)) (map (fun a => pc_id (snd a)) (c_child c))) | Some a => atts_of a (c_vis c) c end.
Theorem merge_disjoint_matched mode parent idb att n c items :
  own_atts att c = Ret items ->
  (forall k e, In (k, e) (c_child n) -> exists av, key_att att (pc_id e) n = Ret av /\ first_match av items = None) ->
  CWF c -> visible_ok c -> CWF n -> plain_ids n -> parents_first (c_child n) ->
  (forall k, In k (ckeys n) -> ~ In k (ckeys c)) ->
  (forall k e, In (k, e) (c_child n) -> fine_name (pc_id e) /\ pc_id e <> idb) ->
  (forall k b, In (k, b) (c_dict n) -> fine_block (c_std c) b) ->
  (forall q, parent = Some q -> In (lower q) (ckeys c)) ->
  exists c', coll_merge mode parent idb att n c = (c', Ret tt) /\ CWF c' /\ visible_ok c'
    /\ (forall x, In x (ckeys c') <-> In x (ckeys c) \/ In x (ckeys n))
    /\ (forall x, In x (ckeys c) -> c_get x c' = c_get x c /\ entry_of c' x = entry_of c x)
    /\ (forall x b, In (x, b) (c_dict n) -> c_get x c' = Ret (stored c b))
    /\ (forall x e, In (x, e) (c_child n) -> entry_of c' x = Some (PC (pc_id e) (given_parent parent (pc_parent e))))
    /\ c_order c' = c_order c ++ map fst (c_child n) /\ c_std c' = c_std c.
Proof.
  intros Own Un W V Wn Pn PF Dis Fn FB Hp. unfold coll_merge. cbv zeta. unfold own_atts in Own. rewrite Own.
  set (m := match mode with Some m => m | None => _ end). set (base := map _ (c_child c)).
  destruct (merge_keys_disjoint m parent idb att n Wn Pn (fun k e b I _ => Fn k e I) (c_child n) c items base W V) as (c' & l' & E & W' & V' & St & _ & _ & D & F & T & O).
  - auto.
  - now apply table_NoDup.
  - intros k I. apply Dis. eapply Permutation_in; [apply (cw_table _ Wn)|exact I].
  - exact FB.
  - exact Hp.
  - intros l1 k e p l2 El Pe. right. exact (PF l1 k e p l2 El Pe).
  - exact Un.
  - exists c'. split; [exact E|]. split; [exact W'|]. split; [exact V'|].
    assert (Fk : map fst l' = map fst (c_child n)).
    { clear - F. induction F as [|a kb l l' (H & _) _ IH]; [reflexivity|]. cbn. now rewrite H, IH. }
    assert (Kc : ckeys c' = ckeys c ++ map fst (c_child n)) by (unfold ckeys; rewrite D, map_app, Fk; reflexivity).
    assert (Kn : forall x, In x (map fst (c_child n)) <-> In x (ckeys n)).
    { intros x. split; apply Permutation_in; [|symmetry]; apply (cw_table _ Wn). }
    split; [|split; [|split; [|split; [|split]]]].
    + intros x. rewrite Kc, in_app_iff, Kn. reflexivity.
    + intros x Ix. pose proof (cw_low _ W x Ix) as Lx. split.
      * unfold ckeys in Ix. apply in_map_iff in Ix as ((x0, b) & E0 & Ib). cbn [fst] in E0. subst x0.
        rewrite (proj2 (c_get_spec c x b W)) by (rewrite Lx; exact Ib).
        apply c_get_spec; [exact W'|]. rewrite Lx, D. apply in_or_app. now left.
      * unfold entry_of. rewrite T. assert (It : In x (map fst (c_child c))) by (eapply Permutation_in; [symmetry; apply (cw_table _ W)|exact Ix]).
        apply in_map_iff in It as ((x0, e) & E0 & Ie). cbn [fst] in E0. subst x0.
        rewrite (dget_In_NoDup str_eqb str_eqb_spec x e (c_child c)) by (try apply (table_NoDup c W); exact Ie).
        apply (dget_In_NoDup str_eqb str_eqb_spec); [|apply in_or_app; now left].
        pose proof (table_NoDup c' W') as N. unfold dkeys. rewrite T in N. exact N.
    + intros x b Ib. assert (Ix : In x (map fst (c_child n))) by (apply Kn; apply (in_map fst) in Ib; exact Ib).
      apply in_map_iff in Ix as ((x0, e) & E0 & Ie). cbn [fst] in E0. subst x0.
      assert (X : In (x, stored c b) l').
      { clear - F Ie Ib Wn. induction F as [|a kb l l' (H & b0 & Ib0 & S0) _ IH]; [contradiction Ie|].
        destruct Ie as [->|Ie]; [left|right; now apply IH]. destruct kb as [k1 b1]. cbn [fst snd] in *. subst.
        f_equal. f_equal. pose proof (cw_keys _ Wn) as N.
        apply (dget_In_NoDup str_eqb str_eqb_spec) in Ib; [|exact N]. apply (dget_In_NoDup str_eqb str_eqb_spec) in Ib0; [|exact N]. congruence. }
      apply c_get_spec; [exact W'|]. rewrite (cw_low _ Wn) by (apply (in_map fst) in Ib; exact Ib). rewrite D. apply in_or_app. now right.
    + intros x e Ie. unfold entry_of. rewrite T. apply (dget_In_NoDup str_eqb str_eqb_spec).
      * pose proof (table_NoDup c' W') as N. unfold dkeys. rewrite T in N. exact N.
      * apply in_or_app. right. apply in_map_iff. exists (x, e). now split.
    + exact O.
    + exact St.
Qed.

Theorem merge_disjoint_collections mode parent idb n c :
  CWF c -> visible_ok c -> CWF n -> plain_ids n -> parents_first (c_child n) ->
  (forall k, In k (ckeys n) -> ~ In k (ckeys c)) ->
  (forall k e, In (k, e) (c_child n) -> fine_name (pc_id e) /\ pc_id e <> idb) ->
  (forall k b, In (k, b) (c_dict n) -> fine_block (c_std c) b) ->
  (forall q, parent = Some q -> In (lower q) (ckeys c)) ->
  exists c', coll_merge mode parent idb None n c = (c', Ret tt) /\ CWF c' /\ visible_ok c'
    /\ (forall x, In x (ckeys c') <-> In x (ckeys c) \/ In x (ckeys n))
    /\ (forall x, In x (ckeys c) -> c_get x c' = c_get x c /\ entry_of c' x = entry_of c x)
    /\ (forall x b, In (x, b) (c_dict n) -> c_get x c' = Ret (stored c b))
    /\ (forall x e, In (x, e) (c_child n) -> entry_of c' x = Some (PC (pc_id e) (given_parent parent (pc_parent e))))
    /\ c_order c' = c_order c ++ map fst (c_child n).
Proof.
  intros W V Wn Pn PF Dis Fn FB Hp.
  destruct (merge_disjoint_matched mode parent idb None n c _ eq_refl) as (c' & H1 & H2 & H3 & H4 & H5 & H6 & H7 & H8 & _); try assumption.
  - intros k e _. exists None. split; [reflexivity | apply first_match_none].
  - exists c'. repeat (split; [assumption|]). assumption.
Qed.

(** ** A merge that succeeds has no name in common with what is visible *)
Lemma remove1_incl k l : incl (remove1 str_eqb k l) l.
Proof.
  induction l as [|x r IH]; [easy|]. cbn. destruct (str_eqb k x); [intros y I; now right|].
  intros y [->|I]; [now left|right; now apply IH].
Qed.
Lemma del_one_vis k c : incl (c_vis (fst (del_one k c))) (c_vis c).
Proof.
  unfold del_one. destruct (negb _); [easy|]. cbv zeta. destruct (negb _); [easy|]. destruct (negb _); [easy|].
  destruct (negb _); [apply remove1_incl|]. destruct (negb _); apply remove1_incl.
Qed.
Lemma del_all_vis del l : (forall k c, incl (c_vis (fst (del k c))) (c_vis c)) -> forall c, incl (c_vis (fst (del_all del l c))) (c_vis c).
Proof.
  intros H. induction l as [|k r IH]; intros c; [easy|]. cbn [del_all]. specialize (H k c).
  destruct (del k c) as [c' [x|e]]; cbn [fst] in *; [|exact H]. eapply incl_tran; [apply IH|exact H].
Qed.
Lemma del_go_vis fuel : forall k c, incl (c_vis (fst (del_go fuel k c))) (c_vis c).
Proof.
  induction fuel as [|f IH]; intros k c; [easy|]. cbn [del_go]. destruct (c_get k c) as [b|e]; [|easy].
  pose proof (del_all_vis (del_go f) (with_parent (Some (lower k)) (c_child c)) IH c) as H.
  destruct (del_all _ _ c) as [c' [x|e]]; cbn [fst] in *; [|exact H]. eapply incl_tran; [apply del_one_vis|exact H].
Qed.
Lemma del_hidden k c c' : ~ In (lower k) (c_vis c) -> c_del k c = (c', Ret tt) -> False.
Proof.
  unfold c_del. cbn [del_go]. intros N. destruct (c_get k c) as [b|e]; [|discriminate].
  pose proof (del_all_vis (del_go (length (c_child c))) (with_parent (Some (lower k)) (c_child c)) (del_go_vis _) c) as H.
  destruct (del_all _ _ c) as [c1 [x|e]]; cbn [fst] in H; [|discriminate].
  unfold del_one. destruct (negb _); [discriminate|]. cbv zeta. destruct (negb _); [discriminate|].
  destruct (smem (lower k) _) eqn:M; cbn [negb]; [|discriminate]. apply smem_In in M. cbn [c_vis set_child set_dict] in M.
  intros _. apply N. now apply H.
Qed.
Lemma add_block_vis k name p b c : incl (c_vis c) (c_vis (add_block k name p b c)).
Proof.
  unfold add_block, set_dict, set_lower, set_corder, set_child, set_vis. cbv zeta. cbn [c_lower c_scope c_vis].
  destruct p as [q|]; cbn [c_lower c_scope c_vis].
  - destruct (smem (lower q) _); cbn [c_lower c_scope c_vis]; [|easy].
    destruct (c_scope c); cbn [c_vis]; [easy|]. apply incl_appl. easy.
  - apply incl_appl. easy.
Qed.
Lemma new_block_vis c name b f p c' r : c_std c <> StdNone -> ~ In (lower (fix_name f name)) (c_vis c) ->
  new_block name b f p c = (c', Ret r) -> incl (c_vis c) (c_vis c') /\ c_std c' = c_std c.
Proof.
  intros S N. unfold new_block. destruct (match c_std c with StdCif => _ | _ => _ end) as [b1 [[]|e]]; [|discriminate].
  destruct (Nat.ltb _ _); [discriminate|]. set (k := lower (fix_name f name)) in *.
  assert (A : forall q x y, add_block x y q b1 c = c' -> incl (c_vis c) (c_vis c') /\ c_std c' = c_std c).
  { intros q x y <-. split; [apply add_block_vis|]. unfold add_block, set_dict, set_lower, set_corder, set_child, set_vis. cbv zeta. cbn [c_lower c_scope c_std].
    destruct q as [q|]; [|reflexivity]. destruct (smem _ _); [|reflexivity]. destruct (c_scope c); reflexivity. }
  destruct (smem k (c_lower c)); [|intros [= H _]; exact (A _ _ _ H)].
  destruct (c_std c) eqn:Sc; [congruence| |].
  all: destruct p as [q|].
  1,3: destruct (smem k (with_parent None (c_child c))); [|discriminate];
    destruct (fresh_key k (c_lower c)) as [k'|e]; [|discriminate];
    unfold rekey; destruct (c_get k c) as [b2|e]; [|discriminate]; cbv zeta;
    destruct (dget str_eqb k (c_child c)) as [info|]; [|discriminate];
    destruct (index_of str_eqb k _) as [pos|]; [|discriminate];
    destruct (c_del k (set_child (repoint k k' (c_child c)) c)) as [c2 [[]|e]] eqn:D; [|discriminate];
    exfalso; refine (del_hidden k _ c2 _ D); unfold k; rewrite lower_idem; exact N.
  all: destruct (smem k (with_parent None (c_child c))); [discriminate|];
    destruct (fresh_key k (c_lower c)) as [k'|e]; [|discriminate]; intros [= H _]; exact (A _ _ _ H).
Qed.
Lemma fix_same f n : fix_name f n = n \/ (f = true /\ fix_name f n <> n).
Proof. destruct f; [|now left]. destruct (list_eq_dec N.eq_dec (fix_name true n) n); auto. Qed.

Lemma merge_keys_visible mode parent idb n : mode <> MReplace ->
  forall keys items base c c', c_std c <> StdNone -> (forall x, In x keys -> fix_name true x = x) ->
  merge_keys mode parent idb None keys items base n c = (c', Ret tt) ->
  incl (c_vis c) (c_vis c') /\ forall x, In x keys -> x <> idb -> ~ In (lower x) (c_vis c).
Proof.
  intros Hm. induction keys as [|key r IH]; intros items base c c' S Fx; cbn [merge_keys].
  - intros [= <-]. split; [easy|]. intros x [].
  - destruct (str_eqb_spec key idb) as [Ei|Ni].
    + intros H. destruct (IH items base c c' S (fun x I => Fx x (or_intror I)) H) as (A & B). split; [exact A|].
      intros x [<-|I] Nx; [contradiction|now apply B].
    + rewrite first_match_none. destruct (c_has key c) eqn:Hc; cbn [negb orb].
      * destruct mode; try congruence; try discriminate.
        destruct (obind (c_get key c) _) as [[b nb]|e]; [|discriminate]. cbn [block_merge]. discriminate.
      * assert (Nk : ~ In (lower key) (c_vis c)) by (now apply smem_false in Hc).
        destruct (obind (get_parent key n) _) as [[p b]|e]; [|discriminate].
        destruct (new_block key b true _ c) as [c1 [k1|e]] eqn:E; [|discriminate]. intros H.
        apply new_block_vis in E as (I1 & S1); [|exact S|rewrite (Fx key (or_introl eq_refl)); exact Nk].
        destruct (IH items base c1 c') as (A & B); [congruence| |exact H|].
        { intros x I. apply Fx. now right. }
        split; [eapply incl_tran; eassumption|]. intros x [<-|I] Nx; [exact Nk|]. intros C. apply (B x I Nx). now apply I1.
Qed.
Theorem merge_refuses mode parent idb n c c' : c_std c <> StdNone -> mode <> Some MReplace ->
  (forall k e, In (k, e) (c_child n) -> fix_name true (pc_id e) = pc_id e) ->
  coll_merge mode parent idb None n c = (c', Ret tt) ->
  forall k e, In (k, e) (c_child n) -> pc_id e <> idb -> c_has (pc_id e) c = false.
Proof.
  intros S Hm Fx. unfold coll_merge. cbv zeta. intros H k e I N. apply smem_false.
  refine (proj2 (merge_keys_visible _ parent idb n _ _ _ _ c c' S _ H) (pc_id e) _ N).
  - destruct mode as [m|]; [congruence|]. destruct (c_std c); congruence.
  - intros x Ix. apply in_map_iff in Ix as ((k0, e0) & <- & I0). cbn [snd]. eapply Fx; eauto.
  - apply in_map_iff. exists (k, e). now split.
Qed.

(** ** makebc *)
Lemma fetch_spec l c d : fetch_blocks l c = Ret d -> map fst d = l /\ forall x b, In (x, b) d -> dget str_eqb x (c_dict c) = Some b.
Proof.
  revert d. induction l as [|x r IH]; intros d; cbn [fetch_blocks]; [intros [= <-]; split; [reflexivity|intros ? ? []]|].
  destruct (dget str_eqb x (c_dict c)) as [b|] eqn:E; [|discriminate]. destruct (fetch_blocks r c) as [d'|e]; [|discriminate].
  cbn [obind]. intros [= <-]. destruct (IH d' eq_refl) as (A & B). split; [cbn; now rewrite A|].
  intros y b' [[= <- <-]|I]; [exact E|now apply B].
Qed.
Lemma fetch_total l c : (forall x, In x l -> In x (ckeys c)) -> exists d, fetch_blocks l c = Ret d.
Proof.
  induction l as [|x r IH]; intros H; [now exists []|]. cbn [fetch_blocks].
  destruct (dget str_eqb x (c_dict c)) as [b|] eqn:E.
  - destruct IH as (d & ->); [intros y I; apply H; now right|]. cbn [obind]. eauto.
  - exfalso. apply (dget_None str_eqb str_eqb_spec) in E. apply E. apply H. now left.
Qed.
Theorem makebc_part names sc c : CWF c -> exists n, makebc names sc c = Ret n /\ part_of names c n
  /\ c_order n = map lower names /\ c_scope n = sc /\ c_std n = StdCif
  /\ (NoDup (map lower names) -> (forall x, In x (map lower names) -> In x (ckeys c)) -> CWF n /\ visible_ok n).
Proof.
  intros W. unfold makebc. cbv zeta. set (low := map lower names). set (proto := filter _ (c_child c)).
  assert (Ip : forall k e, In (k, e) proto <-> In (k, e) (c_child c) /\ In k low).
  { intros k e. unfold proto. rewrite filter_In. cbn [fst]. now rewrite smem_In. }
  destruct (fetch_total (map fst proto) c) as (d & Ed).
  { intros x I. apply in_map_iff in I as ((k, e) & <- & I). apply Ip in I as (I & _). cbn [fst].
    eapply Permutation_in; [apply (cw_table _ W)|]. apply (in_map fst) in I. exact I. }
  rewrite Ed. cbn [obind]. destruct (fetch_spec _ _ _ Ed) as (Kd & Bd).
  set (t := map (fun a : str * pc => match pc_parent (snd a) with Some p => if smem p low then a else (fst a, PC (pc_id (snd a)) None) | None => a end) proto).
  assert (Dd : forall x b, In (x, b) d <-> In (x, b) (c_dict c) /\ In x low).
  { intros x b. split.
    - intros I. pose proof (Bd x b I) as G. split; [now apply (dget_In str_eqb str_eqb_spec)|].
      assert (J : In x (map fst proto)) by (rewrite <- Kd; apply (in_map fst) in I; exact I).
      apply in_map_iff in J as ((k, e) & E & J). cbn [fst] in E. subst k. now apply Ip in J.
    - intros (I & L). assert (J : In x (map fst d)).
      { rewrite Kd. assert (Kx : In x (map fst (c_child c))) by (eapply Permutation_in; [symmetry; apply (cw_table _ W)|]; apply (in_map fst) in I; exact I).
        apply in_map_iff in Kx as ((k, e) & E & J). cbn [fst] in E. subst k. apply in_map_iff. exists (x, e). split; [reflexivity|]. now apply Ip. }
      apply in_map_iff in J as ((k, b') & E & J). cbn [fst] in E. subst k. pose proof (Bd x b' J) as G.
      rewrite (dget_In_NoDup str_eqb str_eqb_spec x b (c_dict c)) in G by (try apply (cw_keys _ W); exact I). injection G as <-. exact J. }
  assert (It : forall x e, In (x, e) t <-> exists e0, In (x, e0) (c_child c) /\ In x low /\ pc_id e = pc_id e0 /\
      forall p, pc_parent e = Some p <-> pc_parent e0 = Some p /\ In p low).
  { intros x e. unfold t. rewrite in_map_iff. split.
    - intros ((k, e0) & E & I). apply Ip in I as (I & L). cbn [fst snd] in E.
      destruct (pc_parent e0) as [p|] eqn:P.
      + destruct (smem p low) eqn:M; injection E as <- <-; exists e0; (split; [exact I|]); (split; [exact L|]); (split; [reflexivity|]); intros q.
        * apply smem_In in M. rewrite P. split; [intros X; split; [exact X|]; congruence|now intros (X & _)].
        * apply smem_false in M. cbn [pc_parent]. rewrite P. split; [discriminate|]. intros ([= <-] & X). contradiction.
      + injection E as <- <-. exists e0. split; [exact I|]. split; [exact L|]. split; [reflexivity|]. intros q. rewrite P. split; [discriminate|now intros (X & _)].
    - intros (e0 & I & L & Eid & Ep). exists (x, e0). split; [|now apply Ip]. cbn [fst snd].
      destruct (pc_parent e0) as [p|] eqn:P.
      + destruct (smem p low) eqn:M.
        * apply smem_In in M. f_equal. destruct e as [i q], e0 as [i0 q0]. cbn [pc_id pc_parent] in *. subst. f_equal. symmetry. apply Ep. now split.
        * apply smem_false in M. f_equal. destruct e as [i q], e0 as [i0 q0]. cbn [pc_id pc_parent] in *. subst. f_equal.
          destruct q as [q|]; [|reflexivity]. exfalso. destruct (proj1 (Ep q) eq_refl) as ([= <-] & X). contradiction.
      + f_equal. destruct e as [i q], e0 as [i0 q0]. cbn [pc_id pc_parent] in *. subst. f_equal.
        destruct q as [q|]; [|reflexivity]. exfalso. destruct (proj1 (Ep q) eq_refl) as (X & _). discriminate. }
  eexists. split; [reflexivity|]. split; [split; [exact Dd|exact It]|]. split; [reflexivity|]. split; [reflexivity|]. split; [reflexivity|].
  intros Nd Sub. set (n := Coll d (map fst proto) t [] low StdCif sc false G20).
  assert (Kt : map fst t = map fst proto).
  { unfold t. rewrite map_map. apply map_ext. intros (k, e). cbn [fst snd]. destruct (pc_parent e) as [p|]; [destruct (smem p low)|]; reflexivity. }
  assert (Np : NoDup (map fst proto)) by (apply NoDup_map_filter; now apply table_NoDup).
  assert (Ins : forall p x, inside n p x -> inside c p x /\ In p low).
  { intros p x (i & H). apply (It x (PC i (Some p))) in H as (e0 & I & L & Eid & Ep). cbn [pc_id pc_parent] in *.
    destruct (proj1 (Ep p) eq_refl) as (P0 & Lp). split; [|exact Lp]. exists (pc_id e0). destruct e0 as [i0 q0]. cbn [pc_id pc_parent] in *. now subst. }
  assert (W' : CWF n).
  { constructor; unfold n; cbn [c_lower c_child c_order]; unfold ckeys; cbn [c_dict]; rewrite ?Kt, ?Kd; auto.
    - intros k I. apply in_map_iff in I as ((k0, e) & <- & I). cbn [fst]. apply Ip in I as (I & _). apply (cw_low _ W).
      eapply Permutation_in; [apply (cw_table _ W)|]. apply (in_map fst) in I. exact I.
    - apply NoDup_Permutation; [exact Nd|exact Np|]. intros x. split.
      + intros L. pose proof (Sub x L) as Kx. assert (J : In x (map fst (c_child c))) by (eapply Permutation_in; [symmetry; apply (cw_table _ W)|exact Kx]).
        apply in_map_iff in J as ((k, e) & E & J). cbn [fst] in E. subst k. apply in_map_iff. exists (x, e). split; [reflexivity|]. now apply Ip.
      + intros I. apply in_map_iff in I as ((k, e) & <- & I). now apply Ip in I.
    - intros p x H. apply Ins in H as (H & L). pose proof (cw_parents _ W p x H) as Kp.
      assert (J : In p (map fst (c_child c))) by (eapply Permutation_in; [symmetry; apply (cw_table _ W)|exact Kp]).
      apply in_map_iff in J as ((k, e) & E & J). cbn [fst] in E. subst k. apply in_map_iff. exists (p, e). split; [reflexivity|]. now apply Ip.
    - intros x H. apply (cw_acyclic _ W x). revert H. generalize x at 1 3. intros y H. induction H as [z H|z w _ IH H].
      + apply below_one. now apply Ins in H.
      + eapply below_more; [exact IH|]. now apply Ins in H. }
  split; [now apply scope_CWF|now apply scope_visible].
Qed.
