(** Lemmas about StarBlockModel.v, continued: removal, loops, reordering,
    invariant over histories, frame. *)
From Coq Require Import String Ascii List NArith ZArith Bool Lia Permutation.
From Verif Require Import PyBase PyFacts StarBlockModel StarBlockSpec StarBlockProofs.
Import ListNotations.

Lemma concat_split {A} (l1 : list (Z * list A)) k ns l2 :
  concat (map snd (l1 ++ (k, ns) :: l2)) = concat (map snd l1) ++ ns ++ concat (map snd l2).
Proof. rewrite map_app, concat_app. reflexivity. Qed.

Lemma dkeys_app {K V} (a b : list (K * V)) : dkeys (a ++ b) = dkeys a ++ dkeys b.
Proof. apply map_app. Qed.

Lemma printed_NoDup b : WF b -> NoDup (printed_names b).
Proof. intros W. eapply Permutation_NoDup; [symmetry; apply (wf_place b W)|apply (wf_keys b W)]. Qed.

Lemma ddel_In {V} k (x : str * V) (d : list (str * V)) : In x (ddel str_eqb k d) -> In x d.
Proof.
  induction d as [|[k2 t2] r IH]; cbn; [auto|].
  destruct (str_eqb k k2); cbn; intuition.
Qed.

Lemma perm_cons_inv_app {A} (x : A) a r1 r2 c ks :
  Permutation (a ++ r1 ++ c) (x :: ks) -> Permutation (x :: r2) r1 ->
  Permutation (a ++ r2 ++ c) ks.
Proof.
  intros P Q. apply Permutation_cons_inv with (a := x). rewrite <- P, <- Q.
  cbn. rewrite Permutation_middle. reflexivity.
Qed.

(* ---------- remove_item ---------- *)

Lemma wf_order_loop b k : WF b -> In k (dkeys (b_loops b)) -> In (OL k) (b_order b).
Proof.
  intros W H. apply order_loops_In. eapply Permutation_in; [|exact H].
  symmetry. apply (wf_refs b W).
Qed.

Lemma remove_item_ret key b : WF b -> snd (remove_item key b) = Ret tt.
Proof.
  intros W. unfold remove_item. rewrite has_key_lower.
  destruct (has_key key b) eqn:HK; [|reflexivity].
  destruct (find_loop key b) as [k|] eqn:FL.
  - destruct (wf_loop_get b key k W FL) as (l1 & names & l2 & E1 & E2 & E3 & E4 & E5).
    rewrite E2. destruct (remove1 str_eqb (lower key) names); [|reflexivity].
    replace (mem oitem_eqb (OL k) (b_order b)) with true; [reflexivity|].
    symmetry. apply (mem_In _ oitem_eqb_spec). apply (wf_order_loop b k W).
    rewrite E1, dkeys_app. apply in_or_app; right; left; reflexivity.
  - replace (mem oitem_eqb (ON (lower key)) (b_order b)) with true; [reflexivity|].
    symmetry. apply (mem_In _ oitem_eqb_spec).
    apply has_key_In in HK. apply (printed_In_keys b _ W) in HK.
    unfold printed_names in HK. apply in_app_or in HK as [HK|HK].
    + now apply order_names_In.
    + apply find_loop_None in FL. contradiction.
Qed.

Lemma remove_item_wf key b : WF b -> WF (fst (remove_item key b)).
Proof.
  intros W. pose proof (printed_NoDup b W) as PN.
  unfold remove_item. rewrite has_key_lower.
  destruct (has_key key b) eqn:HK; [|assumption].
  apply has_key_In in HK.
  set (lk := lower key) in *.
  assert (KP : Permutation (lk :: dkeys (ddel str_eqb lk (b_data b))) (b_keys b)).
  { rewrite dkeys_ddel by apply str_eqb_spec. apply remove1_perm; [apply str_eqb_spec|assumption]. }
  assert (TP : Permutation (dkeys (ddel str_eqb lk (b_true b))) (dkeys (ddel str_eqb lk (b_data b)))).
  { apply Permutation_cons_inv with (a := lk). rewrite KP. rewrite <- (wf_true b W).
    rewrite dkeys_ddel by apply str_eqb_spec. apply remove1_perm; [apply str_eqb_spec|].
    eapply Permutation_in; [|exact HK]. symmetry; apply (wf_true b W). }
  assert (KN : NoDup (dkeys (ddel str_eqb lk (b_data b)))).
  { apply NoDup_ddel; [apply str_eqb_spec|apply (wf_keys b W)]. }
  assert (KL : forall k, In k (dkeys (ddel str_eqb lk (b_data b))) -> lower k = k).
  { intros k I. apply (wf_low b W). eapply Permutation_in; [exact KP|]. now right. }
  assert (TC : forall k t, In (k, t) (ddel str_eqb lk (b_true b)) -> lower t = k).
  { intros k t I. apply (wf_case b W). eapply ddel_In; eauto. }
  pose proof (wf_place b W) as WP. rewrite <- KP in WP. unfold printed_names in WP.
  destruct (find_loop key b) as [k|] eqn:FL.
  - destruct (wf_loop_get b key k W FL) as (l1 & names & l2 & E1 & E2 & E3 & E4 & E5).
    rewrite E2. fold lk in E3.
    assert (RP : Permutation (lk :: remove1 str_eqb lk names) names)
      by (apply remove1_perm; [apply str_eqb_spec|assumption]).
    pose proof (wf_nums b W) as WN. pose proof (wf_refs b W) as WR. pose proof (wf_pos b W) as WPs.
    assert (IK : In k (dkeys (b_loops b))).
    { rewrite E1, dkeys_app. apply in_or_app; right; left; reflexivity. }
    destruct (remove1 str_eqb lk names) as [|n0 nr] eqn:RN.
    + (* loop vanishes *)
      destruct (ddel_split Z.eqb Z.eqb_spec k (b_loops b) WN IK) as (m1 & m2 & v0 & F1 & F2 & F3).
      assert (v0 = names) by congruence. subst v0.
      destruct (mem oitem_eqb (OL k) (b_order b)) eqn:MO.
      2:{ apply (mem_false _ oitem_eqb_spec) in MO. exfalso. apply MO. now apply wf_order_loop. }
      cbn [fst]. unfold set_order. cbn [b_data b_loops b_order b_true].
      constructor; unfold b_keys, printed_names; cbn [b_data b_loops b_order b_true]; auto.
      * rewrite order_names_remove_OL. rewrite F2, map_app, concat_app.
        rewrite F1, concat_split, app_assoc in WP. 
        rewrite app_assoc.
        eapply (perm_cons_inv_app lk _ names []); eauto.
      * rewrite order_loops_remove_OL.
        apply Permutation_cons_inv with (a := k).
        rewrite dkeys_ddel by apply Z.eqb_spec.
        rewrite !remove1_perm; auto using Z.eqb_spec.
        apply order_loops_In. now apply wf_order_loop.
      * apply NoDup_ddel; [apply Z.eqb_spec|assumption].
      * intros k' I. apply WPs. rewrite dkeys_ddel in I by apply Z.eqb_spec.
        eapply remove1_incl; eauto using Z.eqb_spec.
    + (* loop keeps other names *)
      destruct (dset_values Z.eqb Z.eqb_spec k (n0 :: nr) (b_loops b) WN IK)
        as (m1 & m2 & v0 & F1 & F2 & F3 & F4 & F5).
      assert (v0 = names) by congruence. subst v0.
      cbn [fst]. unfold upd_loop.
      assert (DKE : dkeys (dset Z.eqb k (n0 :: nr) (b_loops b)) = dkeys (b_loops b)).
      { rewrite F2, F1, !dkeys_app. reflexivity. }
      constructor; unfold b_keys, printed_names; cbn [b_data b_loops b_order b_true]; auto;
        rewrite ?DKE; auto.
      rewrite F2, concat_split, app_assoc.
      rewrite F1, concat_split, app_assoc in WP.
      eapply (perm_cons_inv_app lk _ names (n0 :: nr)); eauto.
  - assert (IO : In (ON lk) (b_order b)).
    { apply (printed_In_keys b _ W) in HK. unfold printed_names in HK.
      apply in_app_or in HK as [HK|HK]; [now apply order_names_In|].
      apply find_loop_None in FL. contradiction. }
    destruct (mem oitem_eqb (ON lk) (b_order b)) eqn:MO.
    2:{ apply (mem_false _ oitem_eqb_spec) in MO. contradiction. }
    cbn [fst]. unfold set_order. cbn [b_data b_loops b_order b_true].
    destruct W as [Wk Wl Wt Wc Wp Wr Wn Wpos].
    constructor; unfold b_keys, printed_names; cbn [b_data b_loops b_order b_true]; auto.
    + rewrite order_names_remove_ON.
      apply (perm_cons_inv_app lk [] (order_names (b_order b))); auto.
      apply remove1_perm; [apply str_eqb_spec|]. now apply order_names_In.
    + rewrite order_loops_remove_ON. assumption.
Qed.

(* ---------- create_loop ---------- *)

Lemma drop_names_filter names : forall l, NoDup l ->
  drop_names names l = filter (fun n => negb (mem str_eqb n names)) l.
Proof.
  unfold drop_names. induction names as [|n r IH]; intros l ND; cbn [fold_left].
  - symmetry. apply filter_all. reflexivity.
  - assert (E : (if mem str_eqb n l then remove1 str_eqb n l else l)
                = filter (fun y => negb (str_eqb n y)) l).
    { destruct (mem str_eqb n l) eqn:M.
      - apply remove1_NoDup_filter; [apply str_eqb_spec|assumption].
      - symmetry. apply filter_all. intros x Hx.
        apply (mem_false _ str_eqb_spec) in M.
        destruct (str_eqb_spec n x); [subst; contradiction|reflexivity]. }
    rewrite E. rewrite IH by now apply NoDup_filter.
    clear. unfold mem. induction l as [|y l IHl]; cbn [filter existsb]; [reflexivity|].
    destruct (str_eqb_spec n y) as [->|ne]; cbn [negb filter].
    + rewrite str_eqb_refl. cbn [orb negb]. apply IHl.
    + assert (N : str_eqb y n = false) by (destruct (str_eqb_spec y n); congruence).
      rewrite N. cbn [orb]. destruct (existsb (str_eqb y) r); cbn [negb]; [apply IHl|f_equal; apply IHl].
Qed.

Definition notin (names : list str) (n : str) : bool := negb (mem str_eqb n names).

(** CreateLoop's final tables, as a specification. *)
Definition loops_without (lc : list str) (ls : list (Z * list str)) : list (Z * list str) :=
  filter (fun kl => negb (is_empty_loop kl))
         (map (fun kl => (fst kl, filter (notin lc) (snd kl))) ls).

Definition keep_ref (ks : list Z) (o : oitem) : bool :=
  match o with ON _ => true | OL k => negb (mem Z.eqb k ks) end.

Lemma drop_empty_spec ks : forall b,
  NoDup ks -> NoDup (dkeys (b_loops b)) -> NoDup (order_loops (b_order b)) ->
  (forall k, In k ks -> In k (order_loops (b_order b)) /\ In k (dkeys (b_loops b))) ->
  drop_empty ks b =
  (set_loops (filter (fun kl => negb (mem Z.eqb (fst kl) ks)) (b_loops b))
     (set_order (filter (keep_ref ks) (b_order b)) b), Ret tt).
Proof.
  induction ks as [|k r IH]; intros b ND NL NO H; cbn [drop_empty].
  - f_equal. rewrite !filter_all; [destruct b; reflexivity| |].
    + intros [n|k] _; reflexivity.
    + intros x _; reflexivity.
  - inversion ND as [|? ? N1 N2]; subst.
    destruct (H k (or_introl eq_refl)) as [HO HL].
    replace (mem oitem_eqb (OL k) (b_order b)) with true.
    2:{ symmetry. apply (mem_In _ oitem_eqb_spec). now apply order_loops_In. }
    rewrite IH; auto.
    + unfold set_loops, set_order; cbn [b_loops b_order b_data b_true b_over b_max b_uni].
      f_equal. f_equal.
      * clear -NL HL. unfold mem. revert HL.
        induction (b_loops b) as [|[k' ns] ls IHl]; cbn; [contradiction|].
        cbn in NL. inversion NL as [|? ? M1 M2]; subst. intros [->|HL].
        -- rewrite Z.eqb_refl. cbn.
           apply filter_ext_in. intros [k2 n2] I. cbn.
           destruct (Z.eqb_spec k2 k) as [->|]; [|reflexivity].
           exfalso. apply M1. now apply (in_map fst) in I.
        -- destruct (Z.eqb_spec k k') as [->|ne].
           ++ exfalso. apply M1. assumption.
           ++ cbn. destruct (Z.eqb_spec k' k) as [->|]; [congruence|]. cbn.
              destruct (existsb (Z.eqb k') r); cbn; [auto|f_equal; auto].
      * clear -NO HO. unfold keep_ref, mem. revert NO HO.
        induction (b_order b) as [|o os IHo]; cbn; [contradiction|].
        destruct o as [n|k']; cbn.
        -- intros NO HO. f_equal. auto.
        -- intros NO HO. inversion NO as [|? ? M1 M2]; subst.
           destruct (Z.eqb_spec k k') as [->|ne].
           ++ rewrite Z.eqb_refl. cbn. apply filter_ext_in.
              intros [n2|k2] I; cbn; [reflexivity|].
              destruct (Z.eqb_spec k2 k') as [->|]; [|reflexivity].
              exfalso. apply M1. now apply order_loops_In.
           ++ destruct HO as [->|HO]; [congruence|]. cbn.
              destruct (Z.eqb_spec k' k) as [->|]; [congruence|]. cbn.
              destruct (existsb (Z.eqb k') r); cbn; [auto|f_equal; auto].
    + cbn. apply NoDup_ddel; [apply Z.eqb_spec|assumption].
    + cbn. rewrite order_loops_remove_OL. apply remove1_NoDup; [apply Z.eqb_spec|assumption].
    + intros k' I. destruct (H k' (or_intror I)) as [HO' HL']. cbn [set_loops set_order b_loops b_order].
      assert (k' <> k) by (intros ->; contradiction).
      split.
      * rewrite order_loops_remove_OL. apply remove1_in_neq; auto using Z.eqb_spec.
      * rewrite dkeys_ddel by apply Z.eqb_spec. apply remove1_in_neq; auto using Z.eqb_spec.
Qed.

Lemma fold_max_ge ls : forall m, (m <= fold_left (fun m kl => Z.max m (fst kl)) ls m)%Z
  /\ forall (x : Z * list str), In x ls -> (fst x <= fold_left (fun m kl => Z.max m (fst kl)) ls m)%Z.
Proof.
  induction ls as [|[k n] ls IH]; intros m; cbn; [split; [lia|contradiction]|].
  destruct (IH (Z.max m k)) as [A B]. split; [lia|].
  intros x [<-|I]; [cbn; lia|auto].
Qed.

Lemma new_loop_no_fresh ls k : In k (dkeys ls) -> (k < new_loop_no ls)%Z.
Proof.
  unfold dkeys. intros H. apply in_map_iff in H as (x & <- & I).
  destruct ls as [|[k0 n0] ls]; [contradiction|]. cbn.
  destruct (fold_max_ge ls k0) as [A B].
  destruct I as [<-|I]; [cbn; lia|]. specialize (B x I). lia.
Qed.

Lemma new_loop_no_pos ls : (forall k, In k (dkeys ls) -> (1 <= k)%Z) -> (1 <= new_loop_no ls)%Z.
Proof.
  intros H. destruct ls as [|[k0 n0] ls]; [cbn; lia|].
  assert (1 <= k0)%Z by (apply H; left; reflexivity).
  pose proof (new_loop_no_fresh ((k0, n0) :: ls) k0 (or_introl eq_refl)). lia.
Qed.

Lemma filter_keep_loops lc ls :
  NoDup (dkeys ls) ->
  let ls2 := map (fun kl => (fst kl, filter (notin lc) (snd kl))) ls in
  filter (fun kl => negb (mem Z.eqb (fst kl) (map fst (filter is_empty_loop ls2)))) ls2
  = loops_without lc ls.
Proof.
  intros ND ls2. unfold loops_without. fold ls2.
  assert (ND2 : NoDup (dkeys ls2)).
  { unfold ls2, dkeys. rewrite map_map. cbn. assumption. }
  apply filter_ext_in. intros [k ns] I. cbn [fst]. f_equal.
  destruct (is_empty_loop (k, ns)) eqn:E.
  - apply (mem_In _ Z.eqb_spec). apply in_map_iff. exists (k, ns). split; [reflexivity|].
    apply filter_In. auto.
  - apply (mem_false _ Z.eqb_spec). intros J. apply in_map_iff in J as ([k' ns'] & F & J).
    cbn in F. subst k'. apply filter_In in J as [J1 J2].
    assert (ns' = ns).
    { pose proof (dget_In_NoDup _ Z.eqb_spec _ _ _ ND2 I).
      pose proof (dget_In_NoDup _ Z.eqb_spec _ _ _ ND2 J1). congruence. }
    congruence.
Qed.

Lemma loops_in_nodup b kl : WF b -> In kl (b_loops b) -> NoDup (snd kl).
Proof.
  intros W I. pose proof (printed_NoDup b W) as P. unfold printed_names in P.
  apply NoDup_app_iff in P as (_ & P & _).
  apply in_split in I as (l1 & l2 & E). destruct kl as [k ns]. rewrite E, concat_split in P.
  apply NoDup_app_iff in P as (_ & P & _). apply NoDup_app_iff in P as (P & _ & _). assumption.
Qed.

Lemma order_loops_NoDup b : WF b -> NoDup (order_loops (b_order b)).
Proof. intros W. eapply Permutation_NoDup; [symmetry; apply (wf_refs b W)|apply (wf_nums b W)]. Qed.

(** State after the length check. *)
Definition loop_tables (names : list str) (order : Z) (b : block) : block :=
  let lc := map lower names in
  let ls := loops_without lc (b_loops b) in
  let no := new_loop_no ls in
  let kept := filter (keep_ref (dkeys (filter is_empty_loop
                (map (fun kl => (fst kl, filter (notin lc) (snd kl))) (b_loops b))))) (b_order b) in
  let ord := if (0 <=? order)%Z then py_insert order (OL no) kept else kept ++ [OL no] in
  set_loops (ls ++ [(no, lc)]) (set_order (filter (order_not_in lc) ord) b).

Lemma create_loop_tables names order (lenchk : bool) b b1 :
  (if lenchk then loop_length_check names b else (b, Ret tt)) = (b1, Ret tt) -> WF b1 ->
  create_loop names order lenchk b = (loop_tables names order b1, Ret tt).
Proof.
  intros HC W. unfold create_loop. rewrite HC. cbv zeta.
  set (lc := map lower names).
  assert (E2 : map (fun kl => (fst kl, drop_names lc (snd kl))) (b_loops b1)
               = map (fun kl => (fst kl, filter (notin lc) (snd kl))) (b_loops b1)).
  { apply map_ext_in. intros kl I. f_equal. apply drop_names_filter.
    eapply loops_in_nodup; eauto. }
  rewrite E2. unfold set_loops at 1 2. cbn [b_loops].
  set (ls2 := map (fun kl => (fst kl, filter (notin lc) (snd kl))) (b_loops b1)).
  assert (KE : dkeys ls2 = dkeys (b_loops b1)).
  { unfold ls2, dkeys. rewrite map_map. reflexivity. }
  rewrite drop_empty_spec.
  - cbn [b_loops b_order set_loops set_order b_data b_true b_over b_max b_uni].
    pose proof (filter_keep_loops lc (b_loops b1) (wf_nums b1 W)) as FK. cbv zeta in FK.
    fold ls2 in FK. rewrite FK. reflexivity.
  - cbn. pose proof (wf_nums b1 W) as N. rewrite <- KE in N. clear -N.
    unfold dkeys in N. induction ls2 as [|x l IH]; cbn in *; [constructor|].
    inversion N as [|? ? N1 N2]; subst. destruct (is_empty_loop x); cbn; auto.
    constructor; auto. intro I. apply N1. apply in_map_iff in I as (y & F & I).
    apply filter_In in I as [I _]. rewrite <- F. now apply in_map.
  - cbn [b_loops]. rewrite KE. apply (wf_nums b1 W).
  - cbn [b_order]. now apply order_loops_NoDup.
  - cbn [b_loops b_order set_loops]. intros k I.
    assert (J : In k (dkeys ls2)).
    { apply in_map_iff in I as (y & F & I). apply filter_In in I as [I _].
      rewrite <- F. unfold dkeys. now apply in_map. }
    split; [|assumption]. rewrite KE in J. apply order_loops_In. now apply wf_order_loop.
Qed.

Lemma order_names_filter (f : oitem -> bool) o :
  order_names (filter f o) = filter (fun n => f (ON n)) (order_names o).
Proof.
  induction o as [|[n|k] o IH]; cbn; [reflexivity| |].
  - destruct (f (ON n)); cbn; [f_equal|]; apply IH.
  - destruct (f (OL k)); cbn; apply IH.
Qed.
Lemma order_loops_filter (f : oitem -> bool) o :
  order_loops (filter f o) = filter (fun k => f (OL k)) (order_loops o).
Proof.
  induction o as [|[n|k] o IH]; cbn; [reflexivity| |].
  - destruct (f (ON n)); cbn; apply IH.
  - destruct (f (OL k)); cbn; [f_equal|]; apply IH.
Qed.

Lemma loops_without_concat lc ls :
  concat (map snd (loops_without lc ls)) = filter (notin lc) (concat (map snd ls)).
Proof.
  unfold loops_without. induction ls as [|[k ns] ls IH]; cbn; [reflexivity|].
  rewrite filter_app. destruct (filter (notin lc) ns) as [|a r] eqn:E; cbn.
  - exact IH.
  - f_equal. f_equal. exact IH.
Qed.

Lemma loops_without_keys lc ls k : In k (dkeys (loops_without lc ls)) -> In k (dkeys ls).
Proof.
  unfold loops_without, dkeys. intros H. apply in_map_iff in H as (x & <- & H).
  apply filter_In in H as [H _]. apply in_map_iff in H as (y & <- & H). cbn.
  now apply in_map.
Qed.

Lemma NoDup_loops_without lc ls : NoDup (dkeys ls) -> NoDup (dkeys (loops_without lc ls)).
Proof.
  unfold dkeys. induction ls as [|[k ns] ls IH]; cbn; [auto|].
  inversion 1 as [|? ? N1 N2]; subst. unfold loops_without in *. cbn.
  destruct (negb _) eqn:E; cbn; [constructor|]; auto.
  intros I. apply N1. apply (loops_without_keys lc ls). exact I.
Qed.

Lemma filter_keep_refs_perm lc ls o :
  NoDup (dkeys ls) -> Permutation (order_loops o) (dkeys ls) ->
  Permutation
    (filter (fun k => negb (mem Z.eqb k (dkeys (filter is_empty_loop
       (map (fun kl => (fst kl, filter (notin lc) (snd kl))) ls))))) (order_loops o))
    (dkeys (loops_without lc ls)).
Proof.
  intros ND P. rewrite (filter_perm _ _ _ P).
  pose proof (filter_keep_loops lc ls ND) as FK. cbv zeta in FK. rewrite <- FK.
  set (E := map fst (filter _ _)).
  unfold dkeys at 1. fold E. unfold dkeys, mem.
  replace (map fst ls) with (map fst (map (fun kl : Z * list str => (fst kl, filter (notin lc) (snd kl))) ls))
    by (rewrite map_map; reflexivity).
  generalize (map (fun kl : Z * list str => (fst kl, filter (notin lc) (snd kl))) ls).
  clear. intros l. induction l as [|x l IH]; cbn; [reflexivity|].
  destruct (negb (existsb (Z.eqb (fst x)) E)); cbn; [constructor|]; assumption.
Qed.

Lemma filter_split_perm lc ks :
  NoDup lc -> NoDup ks -> (forall x, In x lc -> In x ks) ->
  Permutation (filter (notin lc) ks ++ lc) ks.
Proof.
  intros N1 N2 I. apply NoDup_Permutation; auto.
  - apply NoDup_app_iff. repeat split; auto using NoDup_filter.
    intros x Hx Hl. apply filter_In in Hx as [_ Hx]. unfold notin in Hx.
    apply negb_true_iff in Hx. apply (mem_false _ str_eqb_spec) in Hx. contradiction.
  - intros x. rewrite in_app_iff, filter_In. unfold notin.
    destruct (mem str_eqb x lc) eqn:E.
    + apply (mem_In _ str_eqb_spec) in E. split; [intros _; auto|auto].
    + apply (mem_false _ str_eqb_spec) in E. cbn. intuition.
Qed.

Lemma loop_tables_wf names order b :
  WF b -> distinct_names names -> (forall n, In n names -> has_key n b = true) ->
  WF (loop_tables names order b).
Proof.
  intros W D H. unfold loop_tables. set (lc := map lower names).
  set (ls := loops_without lc (b_loops b)).
  set (no := new_loop_no ls).
  set (kept := filter _ (b_order b)).
  assert (LK : forall x, In x lc -> In x (b_keys b)).
  { intros x I. apply in_map_iff in I as (n & <- & I). apply has_key_In. auto. }
  assert (ON_ : forall o, order_names (filter (order_not_in lc) o) = filter (notin lc) (order_names o)).
  { intros o. rewrite order_names_filter. reflexivity. }
  assert (OL_ : forall o, order_loops (filter (order_not_in lc) o) = order_loops o).
  { intros o. rewrite order_loops_filter. apply filter_all. reflexivity. }
  assert (ORD : order_names (if (0 <=? order)%Z then py_insert order (OL no) kept else kept ++ [OL no])
                = order_names (b_order b)).
  { transitivity (order_names kept).
    - destruct (0 <=? order)%Z; [apply order_names_insert_OL|].
      rewrite order_names_app. cbn. apply app_nil_r.
    - unfold kept. rewrite order_names_filter. apply filter_all. reflexivity. }
  assert (ORL : Permutation (order_loops (if (0 <=? order)%Z then py_insert order (OL no) kept else kept ++ [OL no]))
                (dkeys (ls ++ [(no, lc)]))).
  { rewrite dkeys_app. cbn. transitivity (order_loops (kept ++ [OL no])).
    - destruct (0 <=? order)%Z; [|reflexivity]. apply order_loops_perm.
      rewrite py_insert_perm. apply Permutation_cons_append.
    - rewrite order_loops_app. cbn. apply Permutation_app_tail.
      unfold kept. rewrite order_loops_filter. cbn.
      apply filter_keep_refs_perm; [apply (wf_nums b W)|apply (wf_refs b W)]. }
  assert (PP : Permutation (filter (notin lc) (order_names (b_order b)) ++
                            filter (notin lc) (concat (map snd (b_loops b))) ++ lc) (b_keys b)).
  { rewrite app_assoc, <- filter_app. fold (printed_names b).
    rewrite (filter_perm _ _ _ (wf_place b W)).
    apply filter_split_perm; auto. apply (wf_keys b W). }
  destruct W as [Wk Wl Wt Wc Wp Wr Wn Wpos].
  constructor; unfold set_loops, set_order, b_keys, printed_names in *;
    cbn [b_data b_loops b_order b_true] in *; auto.
  - rewrite ON_, ORD, map_app, concat_app. cbn. rewrite app_nil_r.
    unfold ls. rewrite loops_without_concat. assumption.
  - rewrite OL_. assumption.
  - rewrite dkeys_app. apply NoDup_app_iff. repeat split.
    + now apply NoDup_loops_without.
    + cbn. constructor; [auto|constructor].
    + cbn. intros x Hx [<-|[]]. apply new_loop_no_fresh in Hx. unfold no in Hx. lia.
  - intros k I. rewrite dkeys_app in I. apply in_app_or in I as [I|[<-|[]]].
    + apply Wpos. eapply loops_without_keys; eauto.
    + apply new_loop_no_pos. intros k' I'. apply Wpos. eapply loops_without_keys; eauto.
Qed.

Lemma get_items_ok names b vs : get_items names b = Ret vs ->
  forall n, In n names -> has_key n b = true.
Proof.
  revert vs. induction names as [|n r IH]; cbn; [contradiction|].
  intros vs. destruct (get_item n b) as [v|] eqn:G; cbn; [|discriminate].
  destruct (get_items r b) as [ws|] eqn:GR; cbn; [|discriminate].
  intros _ m [<-|I]; [|eauto].
  rewrite get_full_entry in G. destruct (str_eqb n (u "saves")); [discriminate|].
  unfold has_key, dmem. now destruct (dget str_eqb (lower n) (b_data b)).
Qed.

Lemma add_item_has_key k v pre b k' :
  has_key k' b = true -> has_key k' (fst (add_item k v pre b)) = true.
Proof.
  intros H. unfold add_item.
  assert (S : forall s w, has_key k' (store_item k s w b) = true).
  { intros s w. unfold has_key, dmem in *. rewrite store_dget.
    destruct (str_eqb (lower k') (lower k)); [reflexivity|assumption]. }
  destruct (if pre then Ret tt else check_data_name _ _ k) as [[]|]; [|assumption].
  destruct (_ && _); [assumption|].
  destruct pre; [apply S|].
  destruct (regularise v) as [[reg emp]|]; [|assumption].
  destruct (check_item_value _ reg) as [[]|]; [|assumption].
  destruct (check_stringiness reg); apply S.
Qed.

Lemma listify_wf names : forall b, WF b -> WF (fst (listify_items names b)).
Proof.
  induction names as [|n r IH]; intros b W; cbn [listify_items]; [assumption|].
  destruct (get_item n b) as [v|]; [|assumption].
  pose proof (set_item_wf n (VList [v]) b W) as W1.
  destruct (set_item n (VList [v]) b) as [b' [|]]; cbn in *; auto.
Qed.

Lemma listify_has_key names k : forall b, has_key k b = true ->
  has_key k (fst (listify_items names b)) = true.
Proof.
  induction names as [|n r IH]; intros b H; cbn [listify_items]; [assumption|].
  destruct (get_item n b) as [v|]; [|assumption].
  assert (H1 : has_key k (fst (set_item n (VList [v]) b)) = true).
  { unfold set_item. destruct (str_eqb _ _); [assumption|]. now apply add_item_has_key. }
  destruct (set_item n (VList [v]) b) as [b' [|]]; cbn in *; auto.
Qed.

Lemma length_check_wf names b : WF b -> WF (fst (loop_length_check names b)).
Proof.
  intros W. unfold loop_length_check. destruct (get_items names b) as [vs|]; [|assumption].
  destruct (Nat.eqb _ _); [destruct (all_same_len vs); assumption|].
  destruct (negb _); [assumption|]. now apply listify_wf.
Qed.

Lemma length_check_keys names b b1 :
  loop_length_check names b = (b1, Ret tt) -> forall n, In n names -> has_key n b1 = true.
Proof.
  unfold loop_length_check. destruct (get_items names b) as [vs|] eqn:G; [|discriminate].
  pose proof (get_items_ok _ _ _ G) as K.
  destruct (Nat.eqb _ _).
  - destruct (all_same_len vs); [intros [= <-]; assumption|discriminate].
  - destruct (negb _); [discriminate|]. intros H n I.
    pose proof (listify_has_key names n b (K n I)) as L. rewrite H in L. exact L.
Qed.

Lemma create_loop_wf names order b :
  WF b -> distinct_names names -> WF (fst (create_loop names order true b)).
Proof.
  intros W D. pose proof (length_check_wf names b W) as W1.
  destruct (loop_length_check names b) as [b1 [[]|e]] eqn:LC; cbn in W1.
  - rewrite (create_loop_tables names order true b b1 LC W1). cbn.
    apply loop_tables_wf; auto. eapply length_check_keys; eauto.
  - unfold create_loop. rewrite LC. assumption.
Qed.

(* ---------- add_loop_name ---------- *)

Lemma remove_from_loops ln ls :
  NoDup (concat (map snd ls)) ->
  concat (map snd (map (fun kl : Z * list str => (fst kl, if mem str_eqb ln (snd kl)
                           then remove1 str_eqb ln (snd kl) else snd kl)) ls))
  = remove1 str_eqb ln (concat (map snd ls)).
Proof.
  induction ls as [|[k ns] ls IH]; cbn [map concat fst snd]; [reflexivity|].
  intros ND. apply NoDup_app_iff in ND as (N1 & N2 & N3). rewrite IH by assumption.
  destruct (mem str_eqb ln ns) eqn:M.
  - apply (mem_In _ str_eqb_spec) in M. rewrite remove1_app_l; auto using str_eqb_spec.
    f_equal. apply remove1_notin; auto using str_eqb_spec.
  - apply (mem_false _ str_eqb_spec) in M. rewrite remove1_app_r; auto using str_eqb_spec.
Qed.

Lemma add_loop_name_wf o n b : WF b -> WF (fst (add_loop_name o n b)).
Proof.
  intros W. unfold add_loop_name. destruct (find_loop o b) as [k|] eqn:FL; [|assumption].
  destruct (wf_loop_get b o k W FL) as (l1 & names & l2 & E1 & E2 & E3 & E4 & E5).
  rewrite E2. destruct (mem str_eqb (lower n) names) eqn:M; [assumption|].
  destruct (obind (get_item o b) py_len) as [ll|]; [|assumption].
  destruct (obind (get_item n b) py_len) as [nl|] eqn:G; [|assumption].
  destruct (negb _); [assumption|]. cbn [fst].
  apply (mem_false _ str_eqb_spec) in M.
  set (ln := lower n) in *.
  assert (HK : In ln (b_keys b)).
  { apply has_key_In. destruct (get_item n b) as [v|] eqn:GI; [|discriminate].
    rewrite get_full_entry in GI. destruct (str_eqb n (u "saves")); [discriminate|].
    unfold has_key, dmem. fold ln. fold ln in GI. now destruct (dget str_eqb ln (b_data b)). }
  pose proof (printed_NoDup b W) as PN. unfold printed_names in PN.
  pose proof PN as PN'. apply NoDup_app_iff in PN' as (PN1 & PN2 & PN3).
  set (rm := fun kl : Z * list str => (fst kl, if mem str_eqb ln (snd kl)
                           then remove1 str_eqb ln (snd kl) else snd kl)).
  assert (RL : map rm (b_loops b) = map rm l1 ++ (k, names) :: map rm l2).
  { rewrite E1, map_app. cbn [map]. unfold rm at 2. cbn [fst snd].
    apply (mem_false _ str_eqb_spec) in M. now rewrite M. }
  assert (KE : forall l, dkeys (map rm l) = dkeys l).
  { intros l. unfold dkeys. rewrite map_map. reflexivity. }
  assert (DS : dset Z.eqb k (names ++ [ln]) (map rm (b_loops b))
               = map rm l1 ++ (k, names ++ [ln]) :: map rm l2).
  { rewrite RL. assert (NI : ~ In k (dkeys (map rm l1))) by now rewrite KE.
    revert NI. generalize (map rm l1). intros l NI.
    induction l as [|[k' x] l IH]; cbn; [now rewrite Z.eqb_refl|].
    destruct (Z.eqb_spec k k') as [->|ne]; [exfalso; apply NI; now left|].
    f_equal. apply IH. intro; apply NI; now right. }
  assert (CE : Permutation (ln :: order_names (remove1 oitem_eqb (ON ln) (b_order b)) ++
                 concat (map snd (map rm (b_loops b)))) (printed_names b)).
  { rewrite order_names_remove_ON. unfold rm. rewrite remove_from_loops by assumption.
    apply (printed_In_keys b _ W) in HK. unfold printed_names in HK |- *.
    apply in_app_or in HK as [I|I].
    - rewrite (remove1_notin str_eqb str_eqb_spec _ (concat _)) by auto.
      rewrite app_comm_cons. apply Permutation_app_tail. apply remove1_perm; auto using str_eqb_spec.
    - rewrite (remove1_notin str_eqb str_eqb_spec _ (order_names _)).
      2:{ intro J. eapply PN3; eauto. }
      rewrite Permutation_middle. apply Permutation_app_head. apply remove1_perm; auto using str_eqb_spec. }
  destruct W as [Wk Wl Wt Wc Wp Wr Wn Wpos].
  assert (KK : dkeys (map rm l1 ++ (k, names ++ [ln]) :: map rm l2) = dkeys (b_loops b)).
  { rewrite E1, !dkeys_app. cbn. fold (dkeys (map rm l2)). rewrite KE.
    f_equal. f_equal. apply KE. }
  constructor; unfold set_loops, set_order, b_keys, printed_names in *;
    cbn [b_data b_loops b_order b_true] in *; fold rm; rewrite ?DS, ?KK; auto.
  - rewrite <- Wp, <- CE. rewrite RL. rewrite !concat_split.
    rewrite <- !app_assoc. cbn [app].
    rewrite (app_assoc _ (concat (map snd (map rm l1)))), (app_assoc _ names).
    rewrite (app_assoc _ (concat (map snd (map rm l1)))), (app_assoc _ names).
    symmetry. apply Permutation_middle.
  - rewrite order_loops_remove_ON. assumption.
Qed.

Lemma add_loop_names_wf d ns : forall b, WF b -> WF (fst (add_loop_names d ns b)).
Proof.
  induction ns as [|n r IH]; intros b W; cbn; [assumption|].
  pose proof (add_loop_name_wf d n b W) as W1.
  destruct (add_loop_name d n b) as [b' [|]]; cbn in *; auto.
Qed.

Lemma add_to_loop_wf d kvs b : WF b -> WF (fst (add_to_loop d kvs b)).
Proof.
  intros W. unfold add_to_loop. pose proof (update_items_wf kvs b W) as W1.
  destruct (update_items kvs b) as [b' [|]]; cbn in *; auto. now apply add_loop_names_wf.
Qed.

Lemma add_loop_item_wf ns vs b : WF b -> distinct_names ns -> WF (fst (add_loop_item ns vs b)).
Proof.
  intros W D. unfold add_loop_item. pose proof (update_items_wf (combine ns vs) b W) as W1.
  destruct (update_items (combine ns vs) b) as [b' [|]]; cbn in *; auto. now apply create_loop_wf.
Qed.

(* ---------- change_item_order ---------- *)

Lemma change_item_order_wf it pos b : WF b -> WF (fst (change_item_order it pos b)).
Proof.
  intros W. destruct it as [name|k]; cbn [change_item_order].
  - destruct (find_loop name b) as [k|] eqn:FL.
    + destruct (wf_loop_get b name k W FL) as (l1 & names & l2 & E1 & E2 & E3 & E4 & E5).
      rewrite E2. cbn [fst].
      set (names' := py_insert pos (lower name) (remove1 str_eqb (lower name) names)).
      assert (P : Permutation names' names).
      { unfold names'. rewrite py_insert_perm. apply remove1_perm; auto using str_eqb_spec. }
      assert (IK : In k (dkeys (b_loops b))).
      { rewrite E1, dkeys_app. apply in_or_app; right; left; reflexivity. }
      destruct (dset_values Z.eqb Z.eqb_spec k names' (b_loops b) (wf_nums b W) IK)
        as (m1 & m2 & v0 & F1 & F2 & F3 & F4 & F5).
      assert (v0 = names) by congruence. subst v0.
      assert (DKE : dkeys (dset Z.eqb k names' (b_loops b)) = dkeys (b_loops b)).
      { rewrite F2, F1, !dkeys_app. reflexivity. }
      destruct W as [Wk Wl Wt Wc Wp Wr Wn Wpos].
      constructor; unfold set_loops, b_keys, printed_names in *;
        cbn [b_data b_loops b_order b_true] in *; rewrite ?DKE; auto.
      rewrite <- Wp. apply Permutation_app_head. rewrite F2, F1 at 1.
      rewrite !concat_split. apply Permutation_app_head, Permutation_app_tail. assumption.
    + destruct (mem oitem_eqb (ON (lower name)) (b_order b)) eqn:M; [|assumption].
      apply (mem_In _ oitem_eqb_spec) in M. cbn [fst].
      assert (P : Permutation (py_insert pos (ON (lower name))
                   (remove1 oitem_eqb (ON (lower name)) (b_order b))) (b_order b)).
      { rewrite py_insert_perm. apply remove1_perm; auto using oitem_eqb_spec. }
      destruct W as [Wk Wl Wt Wc Wp Wr Wn Wpos].
      constructor; unfold set_order, b_keys, printed_names in *;
        cbn [b_data b_loops b_order b_true] in *; auto.
      * rewrite (order_names_perm _ _ P). assumption.
      * rewrite (order_loops_perm _ _ P). assumption.
  - destruct (b_loops b) as [|x r] eqn:E; [|assumption].
    destruct (mem oitem_eqb (OL k) (b_order b)) eqn:M; [|assumption].
    apply (mem_In _ oitem_eqb_spec) in M. apply order_loops_In in M.
    pose proof (wf_refs b W) as R. rewrite E in R. cbn in R.
    apply (Permutation_in _ R) in M. contradiction.
Qed.

(* ---------- histories ---------- *)

Lemma empty_wf ov m un : WF (empty_block ov m un).
Proof.
  constructor; cbn; try constructor; try contradiction; auto.
Qed.

Lemma wf_settings d l o t ov m un ov' m' un' :
  WF (mkBlock d l o t ov m un) -> WF (mkBlock d l o t ov' m' un').
Proof. intros [A B C D E F G H]. constructor; assumption. Qed.

Lemma run_op_wf o b : WF b -> admissible o -> WF (fst (run_op o b)).
Proof.
  intros W A. destruct o; cbn [run_op fst].
  - now apply set_item_wf.
  - now apply remove_item_wf.
  - now apply create_loop_wf.
  - now apply add_loop_name_wf.
  - now apply add_to_loop_wf.
  - now apply add_loop_item_wf.
  - now apply change_item_order_wf.
  - destruct b. unfold set_overwrite. cbn. eapply wf_settings; eauto.
  - unfold setmaxnamelength. destruct b. cbn. destruct (_ && _); eapply wf_settings; eauto.
  - destruct b. unfold set_characterset. cbn. eapply wf_settings; eauto.
  - apply (empty_wf (b_over b) (b_max b) (b_uni b)).
Qed.

Lemma run_ops_wf os : forall b, WF b -> Forall admissible os -> WF (run_ops os b).
Proof.
  induction os as [|o os IH]; intros b W F; cbn; [assumption|].
  inversion F; subst. apply IH; [|assumption]. now apply run_op_wf.
Qed.
