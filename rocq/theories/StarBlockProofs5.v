(** Lemmas about StarBlockModel.v: summaries used by PropertiesBlock.v. *)
From Coq Require Import String Ascii List NArith ZArith Bool Lia Permutation.
From Verif Require Import PyBase PyFacts StarBlockModel StarBlockSpec StarBlockProofs StarBlockProofs2
  StarBlockProofs3 StarBlockProofs4.
Import ListNotations.

(* ---------- C06 ---------- *)

Lemma keep_ref_alive names b o : WF b -> In o (b_order b) ->
  keep_ref (dkeys (filter is_empty_loop
                (map (fun kl => (fst kl, filter (notin (map lower names)) (snd kl))) (b_loops b)))) o
  = alive names b o.
Proof.
  intros W I. pose proof (keep_ref_still names b o W I) as K.
  destruct o as [n|k]; [reflexivity|]. cbn [order_not_in] in K. rewrite andb_true_r in K. exact K.
Qed.

Lemma still_alive names b o :
  alive names b o && order_not_in (map lower names) o = still_listed names b o.
Proof. destruct o; cbn; [reflexivity|]. now rewrite andb_true_r. Qed.

Lemma filter_still names b l : (forall o, In o l -> alive names b o = true) ->
  filter (order_not_in (map lower names)) l = filter (still_listed names b) l.
Proof.
  intros H. apply filter_ext_in. intros o I. rewrite <- still_alive, H by assumption. reflexivity.
Qed.

Lemma order_new names order b : WF b ->
  let no := new_loop_no (loops_without (map lower names) (b_loops b)) in
  exists pre post,
    filter (alive names b) (b_order b) = pre ++ post
    /\ length pre = (if (0 <=? order)%Z then Nat.min (Z.to_nat order) (length (pre ++ post))
                     else length (pre ++ post))
    /\ b_order (loop_tables names order b)
       = filter (still_listed names b) pre ++ OL no :: filter (still_listed names b) post.
Proof.
  intros W no. unfold loop_tables.
  set (kept := filter (keep_ref _) (b_order b)).
  assert (KE : kept = filter (alive names b) (b_order b)).
  { unfold kept. apply filter_ext_in. intros o I. now apply keep_ref_alive. }
  assert (AL : forall o, In o kept -> alive names b o = true).
  { intros o I. rewrite KE in I. now apply filter_In in I. }
  fold no. rewrite <- KE.
  destruct (0 <=? order)%Z eqn:P.
  - destruct (py_insert_app order (OL no) kept) as (pre & post & E1 & E2 & E3).
    exists pre, post. split; [assumption|]. split.
    + rewrite E2, <- E1. unfold clamp_pos. apply Z.leb_le in P.
      destruct (Z.ltb_spec order 0); lia.
    + cbn [b_order set_loops set_order]. rewrite E3, filter_app. cbn [filter order_not_in].
      rewrite !(filter_still names b); [reflexivity| |]; intros o I; apply AL; rewrite E1;
        apply in_or_app; auto.
  - exists kept, []. rewrite app_nil_r. repeat split.
    cbn [b_order set_loops set_order]. rewrite filter_app. cbn [filter order_not_in].
    rewrite (filter_still names b); auto.
Qed.

Lemma create_loop_effect names order b b' :
  WF b -> distinct_names names -> create_loop names order true b = (b', Ret tt) ->
  exists no, loop_created names order no b b'.
Proof.
  intros W D H. pose proof (create_loop_wf names order b W D) as W'. rewrite H in W'. cbn in W'.
  destruct (loop_length_check names b) as [b1 [[]|e]] eqn:L.
  2:{ rewrite (create_loop_fail _ _ _ _ _ L) in H. discriminate. }
  rewrite (create_loop_success _ _ _ _ W L) in H. injection H as <-.
  destruct (length_check_shape names b b1 D L) as (O1 & L1 & V).
  pose proof (length_check_wf names b W) as W1. rewrite L in W1. cbn in W1.
  set (no := new_loop_no (loops_without (map lower names) (b_loops b1))).
  exists no.
  assert (LOOPS : b_loops (loop_tables names order b1)
                  = loops_without (map lower names) (b_loops b) ++ [(no, map lower names)]).
  { unfold loop_tables. cbn [b_loops set_loops]. rewrite L1. unfold no. rewrite L1. reflexivity. }
  assert (LIN : forall k cols, In (k, cols) (b_loops (loop_tables names order b1)) <->
    (k = no /\ cols = map lower names) \/
    (cols <> [] /\ exists cols0, In (k, cols0) (b_loops b) /\ cols = without names cols0)).
  { intros k cols. rewrite LOOPS, in_app_iff, loops_without_In. cbn. split.
    - intros [X|[[= -> ->]|[]]]; auto.
    - intros [[-> ->]|X]; auto. }
  assert (AL : alive names b1 = alive names b).
  { unfold alive. rewrite L1. reflexivity. }
  assert (SL : still_listed names b1 = still_listed names b).
  { unfold still_listed. rewrite L1. reflexivity. }
  constructor.
  - intros n I. eapply (wf_get_loop _ n no).
    + exact W'.
    + apply LIN. auto.
    + now apply in_map.
  - intros m N. destruct (get_loop_names m b) as [cols|e] eqn:G.
    + destruct (get_loop_names_In b m cols W G) as (k & I & X & _).
      assert (IW : In (lower m) (without names cols)).
      { unfold without. apply filter_In. split; [assumption|]. apply negb_true_iff.
        now apply (mem_false _ str_eqb_spec). }
      eapply (wf_get_loop _ m k); [exact W'| |exact IW].
      apply LIN. right. split; [intros E; rewrite E in IW; contradiction|]. eauto.
    + assert (NL : find_loop m (loop_tables names order b1) = None).
      { apply find_loop_None. intros I. apply in_concat in I as (cols & I & X).
        apply in_map_iff in I as ([k c] & E & I). cbn in E. subst c.
        apply LIN in I as [[-> ->]|(_ & c0 & I & ->)]; [contradiction|].
        unfold without in X. apply filter_In in X as [X _].
        destruct (wf_get_loop b m k c0 W I X) as [_ G']. congruence. }
      unfold get_loop_names in G |- *. rewrite NL.
      destruct (find_loop m b) as [k|] eqn:F; [|congruence].
      destruct (wf_loop_get b m k W F) as (l1 & c' & l2 & E1 & E2 & E3 & _). rewrite E2 in G. discriminate.
  - exact LIN.
  - destruct (order_new names order b1 W1) as (pre & post & E1 & E2 & E3).
    exists pre, post. rewrite AL, O1 in E1. rewrite SL in E3. auto.
  - assert (GI : forall n, get_item n (loop_tables names order b1) = get_item n b1) by reflexivity.
    destruct V as [[C ->]|[A V]]; [left|right]; split; auto.
  - intros m N. change (get_item m b1 = get_item m b). apply get_item_data.
    pose proof (length_check_frame names b (lower m) N) as F. rewrite L in F. exact F.
Qed.

(* ---------- C07 ---------- *)

Lemma remove1_without key cols : NoDup cols -> remove1 str_eqb (lower key) cols = without [key] cols.
Proof.
  intros N. rewrite remove1_NoDup_filter by (auto using str_eqb_spec). unfold without.
  apply filter_ext. intros c. cbn [map]. unfold mem. cbn [existsb]. rewrite orb_false_r.
  f_equal. destruct (str_eqb_spec (lower key) c), (str_eqb_spec c (lower key)); congruence.
Qed.

Lemma without_notin key cols : ~ In (lower key) cols -> without [key] cols = cols.
Proof.
  intros N. unfold without. apply filter_all. intros c I. apply negb_true_iff.
  apply (mem_false _ str_eqb_spec). intros [E|[]]. subst c. contradiction.
Qed.

Lemma without_In names x cols : In x (without names cols) <-> In x cols /\ ~ In x (map lower names).
Proof.
  unfold without. rewrite filter_In. rewrite negb_true_iff, (mem_false _ str_eqb_spec). reflexivity.
Qed.

Lemma remove1_others {A} (eqb : A -> A -> bool) (sp : forall x y, reflect (x = y) (eqb x y)) x l :
  NoDup l -> remove1 eqb x l = others eqb x l.
Proof. intros. now apply remove1_NoDup_filter. Qed.

Lemma order_NoDup b : WF b -> NoDup (b_order b).
Proof.
  intros W. pose proof (printed_NoDup b W) as P. apply NoDup_app_iff in P as (P & _ & _).
  pose proof (order_loops_NoDup b W) as Q. revert P Q.
  induction (b_order b) as [|o r IH]; [constructor|]. cbn. intros P Q.
  destruct o as [n|k]; cbn in P, Q.
  - inversion P; subst. constructor; auto. intros I. apply order_names_In in I. contradiction.
  - inversion Q; subst. constructor; auto. intros I. apply order_loops_In in I. contradiction.
Qed.

Lemma wf_loops_unique_num b k c1 c2 : WF b -> In (k, c1) (b_loops b) -> In (k, c2) (b_loops b) -> c1 = c2.
Proof.
  intros W I1 I2. pose proof (dget_In_NoDup _ Z.eqb_spec _ _ _ (wf_nums b W) I1).
  pose proof (dget_In_NoDup _ Z.eqb_spec _ _ _ (wf_nums b W) I2). congruence.
Qed.

Lemma ddel_In_iff {V} k (x : Z * V) d : NoDup (dkeys d) -> (In x (ddel Z.eqb k d) <-> In x d /\ fst x <> k).
Proof.
  induction d as [|[k2 v2] d IH]; cbn; [tauto|]. inversion 1 as [|? ? N1 N2]; subst.
  destruct (Z.eqb_spec k k2) as [->|NE].
  - split.
    + intros I. split; [auto|]. intros E. apply N1. subst. now apply in_map.
    + intros [[<-|I] NE]; [cbn in NE; congruence|assumption].
  - cbn. rewrite IH by assumption. split.
    + intros [<-|[I NE2]]; cbn; auto.
    + intros [[<-|I] NE2]; auto.
Qed.

Lemma dset_In_iff {V} k (v : V) x d : NoDup (dkeys d) -> In k (dkeys d) ->
  (In x (dset Z.eqb k v d) <-> x = (k, v) \/ (In x d /\ fst x <> k)).
Proof.
  intros N I. destruct (dset_values Z.eqb Z.eqb_spec k v d N I) as (l1 & l2 & v0 & E1 & E2 & _ & N1 & N2).
  rewrite E2, E1, !in_app_iff. cbn.
  assert (K1 : In x l1 -> fst x <> k) by (intros J E; apply N1; rewrite <- E; now apply in_map).
  assert (K2 : In x l2 -> fst x <> k) by (intros J E; apply N2; rewrite <- E; now apply in_map).
  split.
  - intros [J|[<-|J]]; auto.
  - intros [->|[[J|[<-|J]] NE]]; cbn in *; auto. congruence.
Qed.

Lemma remove_item_shape key b : WF b -> has_key key b = true ->
  let b' := fst (remove_item key b) in
  b_order b' = filter (listed_after key b) (b_order b) /\
  (forall k cols, In (k, cols) (b_loops b') <->
    exists cols0, In (k, cols0) (b_loops b) /\ cols = without [key] cols0
                  /\ (In (lower key) cols0 -> cols <> [])).
Proof.
  intros W HK b'. unfold b', remove_item. rewrite has_key_lower, HK.
  pose proof (order_NoDup b W) as ON_. pose proof (wf_nums b W) as NN.
  destruct (find_loop key b) as [k|] eqn:FL.
  - destruct (wf_loop_get b key k W FL) as (l1 & names & l2 & E1 & E2 & E3 & E4 & E5).
    rewrite E2. assert (IK : In (k, names) (b_loops b)) by (rewrite E1; apply in_or_app; right; now left).
    assert (KK : In k (dkeys (b_loops b))) by (change k with (fst (k, names)); now apply in_map).
    pose proof (loops_in_nodup b _ W IK) as ND. cbn in ND.
    assert (OTH : forall k2 c2, In (k2, c2) (b_loops b) -> k2 <> k -> ~ In (lower key) c2).
    { intros k2 c2 I NE X. destruct (wf_loop_unique b _ _ _ _ _ W I IK X E3). contradiction. }
    assert (NON : ~ In (ON (lower key)) (b_order b)).
    { intros I. pose proof (printed_NoDup b W) as P. apply NoDup_app_iff in P as (_ & _ & P).
      apply order_names_In in I. apply (P _ I). apply in_concat. exists names. split; [|assumption].
      change names with (snd (k, names)). now apply in_map. }
    rewrite remove1_without by assumption.
    destruct (without [key] names) as [|x r] eqn:WT.
    + replace (mem oitem_eqb (OL k) (b_order b)) with true.
      2:{ symmetry. apply (mem_In _ oitem_eqb_spec). now apply wf_order_loop. }
      cbn [fst set_order b_order b_loops]. split.
      * rewrite remove1_NoDup_filter by (auto using oitem_eqb_spec).
        apply filter_ext_in. intros [n|k2] I; cbn [listed_after oitem_eqb negb].
        -- destruct (str_eqb_spec n (lower key)) as [->|]; [contradiction|reflexivity].
        -- f_equal. destruct (Z.eqb_spec k k2) as [<-|NE].
           ++ rewrite E2, WT. rewrite (proj2 (mem_In _ str_eqb_spec _ _) E3). reflexivity.
           ++ assert (I2 : In k2 (dkeys (b_loops b))).
              { eapply Permutation_in; [apply (wf_refs b W)|]. now apply order_loops_In. }
              destruct (dget Z.eqb k2 (b_loops b)) as [c2|] eqn:G.
              2:{ apply (dget_None _ Z.eqb_spec) in G. contradiction. }
              apply (dget_In _ Z.eqb_spec) in G.
              rewrite (proj2 (mem_false _ str_eqb_spec _ _) (OTH k2 c2 G (not_eq_sym NE))). reflexivity.
      * intros k2 cols. rewrite ddel_In_iff by assumption. cbn [fst]. split.
        -- intros [I NE]. exists cols. pose proof (OTH _ _ I NE) as X. rewrite without_notin by assumption.
           repeat split; auto; contradiction.
        -- intros (c0 & I & -> & X). destruct (Z.eq_dec k2 k) as [->|NE].
           ++ assert (c0 = names) by (eapply (wf_loops_unique_num b); eauto). subst c0. specialize (X E3). contradiction.
           ++ pose proof (OTH _ _ I NE) as Y. rewrite without_notin by assumption. auto.
    + cbn [fst b_order b_loops]. unfold upd_loop. split.
      * symmetry. apply filter_all. intros [n|k2] I; cbn [listed_after].
        -- destruct (str_eqb_spec n (lower key)) as [->|]; [contradiction|reflexivity].
        -- destruct (dget Z.eqb k2 (b_loops b)) as [c2|] eqn:G; [|reflexivity].
           apply (dget_In _ Z.eqb_spec) in G. destruct (Z.eq_dec k2 k) as [->|NE].
           ++ assert (c2 = names) by (eapply (wf_loops_unique_num b); eauto). subst c2.
              rewrite WT, andb_false_r. reflexivity.
           ++ rewrite (proj2 (mem_false _ str_eqb_spec _ _) (OTH k2 c2 G NE)). reflexivity.
      * intros k2 cols. rewrite dset_In_iff by assumption. cbn [fst]. split.
        -- intros [[= -> ->]|[I NE]].
           ++ exists names. rewrite WT. repeat split; auto; discriminate.
           ++ exists cols. pose proof (OTH _ _ I NE) as X. rewrite without_notin by assumption.
              repeat split; auto; contradiction.
        -- intros (c0 & I & -> & X). destruct (Z.eq_dec k2 k) as [->|NE].
           ++ assert (c0 = names) by (eapply (wf_loops_unique_num b); eauto). subst c0. left. now rewrite WT.
           ++ right. pose proof (OTH _ _ I NE) as Y. rewrite without_notin by assumption. auto.
  - assert (NL : forall k c, In (k, c) (b_loops b) -> ~ In (lower key) c).
    { intros k c I X. apply find_loop_None in FL. apply FL. apply in_concat. exists c.
      split; [|assumption]. change c with (snd (k, c)). now apply in_map. }
    assert (IO : In (ON (lower key)) (b_order b)).
    { apply has_key_In in HK. apply (printed_In_keys b _ W) in HK. unfold printed_names in HK.
      apply in_app_or in HK as [HK|HK]; [now apply order_names_In|].
      apply find_loop_None in FL. contradiction. }
    rewrite (proj2 (mem_In _ oitem_eqb_spec _ _) IO). cbn [fst set_order b_order b_loops]. split.
    + rewrite remove1_NoDup_filter by (auto using oitem_eqb_spec).
      apply filter_ext_in. intros [n|k2] I; cbn [listed_after oitem_eqb negb].
      * f_equal. destruct (str_eqb_spec (lower key) n), (str_eqb_spec n (lower key)); congruence.
      * destruct (dget Z.eqb k2 (b_loops b)) as [c2|] eqn:G; [|reflexivity].
        apply (dget_In _ Z.eqb_spec) in G.
        rewrite (proj2 (mem_false _ str_eqb_spec _ _) (NL k2 c2 G)). reflexivity.
    + intros k2 cols. split.
      * intros I. exists cols. pose proof (NL _ _ I) as X. rewrite without_notin by assumption.
        repeat split; auto; contradiction.
      * intros (c0 & I & -> & X). pose proof (NL _ _ I) as Y. rewrite without_notin by assumption. auto.
Qed.

Lemma remove_item_true key b : has_key key b = true ->
  b_true (fst (remove_item key b)) = ddel str_eqb (lower key) (b_true b).
Proof.
  intros HK. unfold remove_item. rewrite has_key_lower, HK. destruct (find_loop key b).
  - destruct (remove1 _ _ _); [destruct (mem _ _ _)|]; reflexivity.
  - destruct (mem _ _ _); reflexivity.
Qed.

Lemma remove_item_effect key b : WF b -> has_key key b = true ->
  snd (remove_item key b) = Ret tt /\ item_removed key b (fst (remove_item key b)).
Proof.
  intros W HK. split; [now apply remove_item_ret|].
  pose proof (remove_item_wf key b W) as W'.
  destruct (remove_item_shape key b W HK) as [SO SL].
  assert (TN : NoDup (dkeys (b_true b))).
  { eapply Permutation_NoDup; [symmetry; apply (wf_true b W)|apply (wf_keys b W)]. }
  assert (NIL : forall k, In (lower k) (concat (map snd (b_loops (fst (remove_item key b))))) ->
                lower k <> lower key).
  { intros k I E. apply in_concat in I as (c & I & X). apply in_map_iff in I as ([k2 c2] & F & I).
    cbn in F. subst c2. apply SL in I as (c0 & I & -> & _). apply without_In in X as [_ X].
    apply X. left. congruence. }
  assert (GE : forall k, find_loop k (fst (remove_item key b)) = None ->
               get_loop_names k (fst (remove_item key b)) = Raise KeyErr).
  { intros k F. unfold get_loop_names. now rewrite F. }
  constructor.
  - intros k E. split; [now apply remove_item_gone|]. apply GE. apply find_loop_None.
    intros I. now apply NIL in I.
  - intros k N. apply get_item_data. rewrite remove_item_data. apply dget_ddel_neq; auto using str_eqb_spec.
  - rewrite remove_item_true by assumption. apply dget_ddel_eq; auto using str_eqb_spec.
  - intros k N. rewrite remove_item_true by assumption. apply dget_ddel_neq; auto using str_eqb_spec.
  - intros k N. destruct (get_loop_names k b) as [cols|e] eqn:G.
    + destruct (get_loop_names_In b k cols W G) as (n & I & X & _).
      assert (X' : In (lower k) (without [key] cols)).
      { apply without_In. split; [assumption|]. intros [E|[]]. congruence. }
      eapply (wf_get_loop _ k n _ W'); [|exact X'].
      apply SL. exists cols. repeat split; auto. intros _ E. rewrite E in X'. contradiction.
    + assert (F0 : find_loop k b = None).
      { unfold get_loop_names in G. destruct (find_loop k b) as [k2|] eqn:F; [|reflexivity].
        destruct (wf_loop_get b k k2 W F) as (l1 & c' & l2 & E1 & E2 & E3 & _). rewrite E2 in G. discriminate. }
      assert (e = KeyErr) by (unfold get_loop_names in G; rewrite F0 in G; congruence). subst e.
      apply GE. apply find_loop_None. apply find_loop_None in F0. intros I. apply F0.
      apply in_concat in I as (c & I & X). apply in_map_iff in I as ([k2 c2] & F & I).
      cbn in F. subst c2. apply SL in I as (c0 & I & -> & _). apply without_In in X as [X _].
      apply in_concat. exists c0. split; [|assumption]. change c0 with (snd (k2, c0)). now apply in_map.
  - exact SL.
  - exact SO.
Qed.

Lemma remove_item_absent key b : has_key key b = false -> remove_item key b = (b, Ret tt).
Proof. intros H. unfold remove_item. rewrite has_key_lower, H. reflexivity. Qed.

Lemma remove_item_twice key b : WF b ->
  remove_item key (fst (remove_item key b)) = (fst (remove_item key b), Ret tt).
Proof. intros W. apply remove_item_absent. now apply remove_item_gone. Qed.

(* ---------- C08 ---------- *)

Lemma add_loop_name_atomic o n b e : snd (add_loop_name o n b) = Raise e -> fst (add_loop_name o n b) = b.
Proof.
  unfold add_loop_name. destruct (find_loop o b); [|reflexivity].
  destruct (mem _ _ _); [reflexivity|].
  destruct (obind _ _); [|reflexivity]. destruct (obind _ _); [|reflexivity].
  destruct (negb _); [reflexivity|discriminate].
Qed.

Lemma add_loop_name_iff old new b : WF b ->
  (snd (add_loop_name old new b) = Ret tt <->
   exists cols, get_loop_names old b = Ret cols /\
     (In (lower new) cols \/
      exists vo vn k, get_item old b = Ret vo /\ get_item new b = Ret vn /\
                      py_len vo = Ret k /\ py_len vn = Ret k)).
Proof.
  intros W. unfold add_loop_name, get_loop_names.
  destruct (find_loop old b) as [k|] eqn:FL.
  2:{ cbn. split; [discriminate|]. intros (c & X & _). discriminate. }
  destruct (wf_loop_get b old k W FL) as (l1 & cols & l2 & E1 & E2 & E3 & E4 & E5). rewrite E2.
  destruct (mem str_eqb (lower new) cols) eqn:M.
  { cbn. apply (mem_In _ str_eqb_spec) in M. split; [eauto|reflexivity]. }
  apply (mem_false _ str_eqb_spec) in M.
  destruct (get_item old b) as [vo|eo] eqn:GO; cbn [obind].
  2:{ cbn. split; [discriminate|]. intros (c & [= <-] & [X|(vo & vn & j & X & _)]); [contradiction|discriminate]. }
  destruct (py_len vo) as [lo|eo] eqn:LO.
  2:{ cbn. split; [discriminate|]. intros (c & [= <-] & [X|(vo' & vn & j & X & Y & Z & T)]); [contradiction|congruence]. }
  destruct (get_item new b) as [vn|en] eqn:GN; cbn [obind].
  2:{ cbn. split; [discriminate|]. intros (c & [= <-] & [X|(vo' & vn & j & X & Y & _)]); [contradiction|discriminate]. }
  destruct (py_len vn) as [ln|en] eqn:LN.
  2:{ cbn. split; [discriminate|]. intros (c & [= <-] & [X|(vo' & vn' & j & X & Y & Z & T)]); [contradiction|congruence]. }
  destruct (Nat.eqb_spec ln lo) as [->|NE]; cbn.
  - split; [|reflexivity]. intros _. exists cols. split; [reflexivity|]. right. exists vo, vn, lo. auto.
  - split; [discriminate|]. intros (c & [= <-] & [X|(vo' & vn' & j & X & Y & Z & T)]); [contradiction|].
    exfalso. apply NE. congruence.
Qed.

Lemma add_loop_name_effect old new b cols : WF b ->
  get_loop_names old b = Ret cols -> ~ In (lower new) cols ->
  snd (add_loop_name old new b) = Ret tt -> name_looped old new b (fst (add_loop_name old new b)).
Proof.
  intros W GL NI. pose proof (add_loop_name_wf old new b W) as W'. revert W'.
  destruct (get_loop_names_In b old cols W GL) as (k & IK & IO & FL).
  unfold add_loop_name. rewrite FL.
  pose proof (dget_In_NoDup _ Z.eqb_spec _ _ _ (wf_nums b W) IK) as G. rewrite G.
  rewrite (proj2 (mem_false _ str_eqb_spec _ _) NI).
  destruct (obind (get_item old b) py_len) as [lo|]; [|discriminate].
  destruct (obind (get_item new b) py_len) as [ln|]; [|discriminate].
  destruct (negb _); [discriminate|]. intros W' _. cbn [fst] in *.
  set (rm := fun kl : Z * list str => (fst kl, if mem str_eqb (lower new) (snd kl)
                           then remove1 str_eqb (lower new) (snd kl) else snd kl)) in *.
  assert (RM : forall k2 c2, In (k2, c2) (b_loops b) -> rm (k2, c2) = (k2, without [new] c2)).
  { intros k2 c2 I. unfold rm. cbn [fst snd]. f_equal. destruct (mem str_eqb (lower new) c2) eqn:M.
    - apply remove1_without. apply (loops_in_nodup b _ W I).
    - apply (mem_false _ str_eqb_spec) in M. now rewrite without_notin. }
  assert (KE : dkeys (map rm (b_loops b)) = dkeys (b_loops b)).
  { unfold dkeys. rewrite map_map. reflexivity. }
  assert (KK : In k (dkeys (b_loops b))) by (change k with (fst (k, cols)); now apply in_map).
  assert (SL : forall k2 c2, In (k2, c2) (dset Z.eqb k (cols ++ [lower new]) (map rm (b_loops b))) <->
    (k2 = k /\ c2 = cols ++ [lower new]) \/ (k2 <> k /\ exists c0, In (k2, c0) (b_loops b) /\ c2 = without [new] c0)).
  { intros k2 c2. rewrite dset_In_iff; [|rewrite KE; apply (wf_nums b W)|rewrite KE; assumption].
    cbn [fst]. rewrite in_map_iff. split.
    - intros [[= -> ->]|[([k3 c3] & E & I) NE]]; [auto|right]. split; [assumption|].
      rewrite (RM _ _ I) in E. injection E as -> <-. eauto.
    - intros [[-> ->]|(NE & c0 & I & ->)]; [auto|right]. split; [|assumption].
      exists (k2, c0). split; [now apply RM|assumption]. }
  constructor.
  - intros c [= <-]%(eq_trans (eq_sym GL)) n I. eapply (wf_get_loop _ n k _ W'); [|exact I].
    cbn [b_loops set_loops]. apply SL. auto.
  - intros n c [= <-]%(eq_trans (eq_sym GL)) N.
    assert (N1 : ~ In (lower n) cols) by (intros X; apply N, in_or_app; auto).
    assert (N2 : lower n <> lower new) by (intros X; apply N, in_or_app; right; left; auto).
    destruct (get_loop_names n b) as [cn|e] eqn:GN.
    + destruct (get_loop_names_In b n cn W GN) as (k2 & I2 & X2 & _).
      eapply (wf_get_loop _ n k2 _ W').
      * cbn [b_loops set_loops]. apply SL. right. split; [|eauto].
        intros ->. apply N1. replace cols with cn; [assumption|]. eapply (wf_loops_unique_num b); eauto.
      * apply without_In. split; [assumption|]. intros [E|[]]. congruence.
    + assert (F0 : find_loop n b = None).
      { unfold get_loop_names in GN. destruct (find_loop n b) as [k2|] eqn:F; [|reflexivity].
        destruct (wf_loop_get b n k2 W F) as (l1 & c' & l2 & E1 & E2 & E3 & _). rewrite E2 in GN. discriminate. }
      assert (e = KeyErr) by (unfold get_loop_names in GN; rewrite F0 in GN; congruence). subst e.
      unfold get_loop_names.
      match goal with |- match find_loop n ?B with _ => _ end = _ => assert (F1 : find_loop n B = None) end.
      { apply find_loop_None. apply find_loop_None in F0. intros I. cbn [b_loops set_loops] in I.
        apply in_concat in I as (c & I & X). apply in_map_iff in I as ([k2 c2] & F & I).
        cbn in F. subst c2. apply SL in I as [[-> ->]|(NE & c0 & I & ->)]; [contradiction|].
        apply F0. apply without_In in X as [X _].
        apply in_concat. exists c0. split; [|assumption]. change c0 with (snd (k2, c0)). now apply in_map. }
      now rewrite F1.
  - intros x. reflexivity.
  - cbn [b_order set_loops set_order]. apply remove1_NoDup_filter; [apply oitem_eqb_spec|now apply order_NoDup].
  - cbn [b_loops set_loops]. rewrite dkeys_dset by apply Z.eqb_spec. rewrite KE.
    rewrite (proj2 (dmem_In _ Z.eqb_spec k (map rm (b_loops b)))); [reflexivity|]. now rewrite KE.
Qed.

Lemma add_loop_name_present old new b cols : WF b -> get_loop_names old b = Ret cols -> In (lower new) cols ->
  add_loop_name old new b = (b, Ret tt).
Proof.
  intros W GL I. destruct (get_loop_names_In b old cols W GL) as (k & IK & IO & FL).
  unfold add_loop_name. rewrite FL, (dget_In_NoDup _ Z.eqb_spec _ _ _ (wf_nums b W) IK).
  now rewrite (proj2 (mem_In _ str_eqb_spec _ _) I).
Qed.

(* ---------- C09 ---------- *)

Lemma create_loop_no_empty names order b : WF b -> distinct_names names -> names <> [] -> no_empty_loop b ->
  no_empty_loop (fst (create_loop names order true b)).
Proof.
  intros W D NE H. destruct (create_loop names order true b) as [b' [[]|e]] eqn:E; cbn.
  - destruct (create_loop_effect names order b b' W D E) as (no & LC).
    intros k cols I. apply (lc_loops _ _ _ _ _ LC) in I as [[_ ->]|[X _]]; [|assumption].
    destruct names; [congruence|discriminate].
  - destruct (loop_length_check names b) as [b1 [[]|e1]] eqn:L.
    { rewrite (create_loop_success _ _ _ _ W L) in E. discriminate. }
    rewrite (create_loop_fail _ _ _ _ _ L) in E. injection E as <- <-.
    assert (LL : b_loops b1 = b_loops b).
    { clear -L. unfold loop_length_check in L. destruct (get_items names b); [|injection L as <- _; reflexivity].
      destruct (Nat.eqb _ _); [destruct (all_same_len _); injection L as <- _; reflexivity|].
      destruct (negb _); [injection L as <- _; reflexivity|].
      revert b L. induction names as [|n r IH]; intros b; cbn [listify_items]; [intros [= <- _]; reflexivity|].
      destruct (get_item n b) as [v|] eqn:G; [|intros [= <- _]; reflexivity].
      destruct (set_item n (VList [v]) b) as [b2 [[]|]] eqn:E.
      - intros L. rewrite (IH _ L). apply (set_item_existing _ _ _ _ (get_item_key _ _ _ G) E).
      - intros [= <- _]. apply set_item_err in E. now subst. }
    intros k cols I. rewrite LL in I. eauto.
Qed.

Lemma add_item_loops k v pre b : b_loops (fst (add_item k v pre b)) = b_loops b.
Proof.
  unfold add_item. destruct (if pre then _ else _) as [[]|]; [|auto].
  destruct (_ && _); [auto|]. destruct pre; [auto|].
  destruct (regularise v) as [[reg emp]|]; [|auto].
  destruct (check_item_value _ reg) as [[]|]; [|auto].
  destruct (check_stringiness reg); auto.
Qed.

Lemma update_items_loops kvs : forall b, b_loops (fst (update_items kvs b)) = b_loops b.
Proof.
  induction kvs as [|[k v] r IH]; intros b; cbn [update_items]; [reflexivity|].
  pose proof (add_item_loops k v false b) as L.
  destruct (add_item k v false b) as [b' [|]]; cbn in *; [|assumption]. now rewrite IH.
Qed.

Lemma run_op_no_empty o b : WF b -> admissible o -> no_loop_shrink o -> no_empty_loop b ->
  no_empty_loop (fst (run_op o b)).
Proof.
  intros W A N H. destruct o; cbn [run_op fst] in *; try contradiction.
  - unfold set_item. destruct (str_eqb _ _); [assumption|]. intros k c. rewrite add_item_loops. apply H.
  - destruct (has_key key b) eqn:HK; [|now rewrite remove_item_absent].
    destruct (remove_item_shape key b W HK) as [_ SL]. intros k c I.
    apply SL in I as (c0 & I & -> & X). destruct (in_dec (list_eq_dec N.eq_dec) (lower key) c0) as [Y|Y]; [auto|].
    rewrite without_notin by assumption. eapply H; eauto.
  - now apply create_loop_no_empty.
  - unfold add_loop_item. pose proof (update_items_wf (combine names vals) b W) as W1.
    pose proof (update_items_loops (combine names vals) b) as L1.
    destruct (update_items (combine names vals) b) as [b' [|]]; cbn [fst] in *.
    + apply create_loop_no_empty; auto. intros k c. rewrite L1. apply H.
    + intros k c. rewrite L1. apply H.
  - unfold change_item_order. destruct it as [n|k].
    + destruct (find_loop n b) as [k|] eqn:FL.
      * destruct (wf_loop_get b n k W FL) as (l1 & names & l2 & E1 & E2 & E3 & E4 & E5).
        rewrite E2. cbn [fst b_loops set_loops]. intros k2 c2 I.
        apply dset_In_iff in I as [[= -> ->]|[I _]].
        -- intros X. assert (Q : Permutation (py_insert pos (lower n) (remove1 str_eqb (lower n) names)) (lower n :: remove1 str_eqb (lower n) names)) by apply py_insert_perm.
           rewrite X in Q. apply Permutation_nil in Q. discriminate.
        -- eapply H; eauto.
        -- apply (wf_nums b W).
        -- rewrite E1, dkeys_app. apply in_or_app; right; now left.
      * destruct (mem _ _ _); assumption.
    + destruct (b_loops b) eqn:E; [|assumption]. destruct (mem _ _ _); [|assumption].
      intros k2 c2 I. cbn in I. rewrite E in I. contradiction.
  - exact H.
  - unfold setmaxnamelength. cbv zeta. destruct (_ && _); exact H.
  - exact H.
  - intros k c [].
Qed.

Lemma run_ops_no_empty os : forall b, WF b -> Forall admissible os -> Forall no_loop_shrink os ->
  no_empty_loop b -> no_empty_loop (run_ops os b).
Proof.
  induction os as [|o os IH]; intros b W A N H; cbn; [assumption|].
  inversion A; subst. inversion N; subst. apply IH; auto; [now apply run_op_wf|now apply run_op_no_empty].
Qed.

(* ---------- C10 ---------- *)

Lemma others_insert {A} (eqb : A -> A -> bool) (sp : forall x y, reflect (x = y) (eqb x y)) p x l :
  others eqb x (py_insert p x (remove1 eqb x l)) = others eqb x (remove1 eqb x l).
Proof.
  destruct (py_insert_app p x (remove1 eqb x l)) as (pre & post & E1 & _ & ->). rewrite E1.
  unfold others. rewrite !filter_app. cbn [filter].
  destruct (sp x x); [reflexivity|congruence].
Qed.
Lemma others_remove1 {A} (eqb : A -> A -> bool) (sp : forall x y, reflect (x = y) (eqb x y)) x l :
  others eqb x (remove1 eqb x l) = others eqb x l.
Proof.
  unfold others. induction l as [|a l IH]; [reflexivity|]. cbn. destruct (sp x a) as [->|N]; [reflexivity|].
  cbn. destruct (sp x a); [contradiction|]. cbn. now rewrite IH.
Qed.

Lemma clamp_insert n pos : clamp_pos n pos = insert_position n pos.
Proof. unfold clamp_pos, insert_position. destruct (Z.ltb_spec pos 0); lia. Qed.

Lemma remove1_length {A} (eqb : A -> A -> bool) (sp : forall x y, reflect (x = y) (eqb x y)) x l :
  In x l -> length (remove1 eqb x l) = (length l - 1)%nat.
Proof.
  intros I. pose proof (Permutation_length (remove1_perm eqb sp x l I)) as P. cbn in P. lia.
Qed.

Lemma moved_insert {A} (eqb : A -> A -> bool) (sp : forall x y, reflect (x = y) (eqb x y)) x pos l :
  In x l -> moved eqb x pos l (py_insert pos x (remove1 eqb x l)).
Proof.
  intros I. split; [|split].
  - rewrite py_insert_perm. now apply remove1_perm.
  - rewrite others_insert, others_remove1; auto.
  - rewrite <- clamp_insert, <- (remove1_length eqb sp x l I). apply py_insert_nth.
Qed.

Lemma reorder_top name pos b : WF b -> has_key name b = true -> find_loop name b = None ->
  exists b', change_item_order (ON name) pos b = (b', Ret tt)
    /\ moved oitem_eqb (ON (lower name)) pos (b_order b) (b_order b')
    /\ b' = set_order (b_order b') b.
Proof.
  intros W HK FL. cbn [change_item_order]. rewrite FL.
  assert (IO : In (ON (lower name)) (b_order b)).
  { apply has_key_In in HK. apply (printed_In_keys b _ W) in HK. unfold printed_names in HK.
    apply in_app_or in HK as [HK|HK]; [now apply order_names_In|].
    apply find_loop_None in FL. contradiction. }
  rewrite (proj2 (mem_In _ oitem_eqb_spec _ _) IO). eexists. split; [reflexivity|].
  split; [|reflexivity]. cbn [set_order b_order]. now apply moved_insert; auto using oitem_eqb_spec.
Qed.

Lemma reorder_column name pos b cols : WF b -> get_loop_names name b = Ret cols ->
  exists b' cols', change_item_order (ON name) pos b = (b', Ret tt)
    /\ moved str_eqb (lower name) pos cols cols'
    /\ get_loop_names name b' = Ret cols'
    /\ (forall m, ~ In (lower m) cols -> get_loop_names m b' = get_loop_names m b)
    /\ b' = set_loops (b_loops b') b.
Proof.
  intros W G. pose proof (change_item_order_wf (ON name) pos b W) as W'.
  destruct (get_loop_names_In b name cols W G) as (k & IK & IN & FL).
  cbn [change_item_order] in *. rewrite FL in *.
  pose proof (dget_In_NoDup _ Z.eqb_spec _ _ _ (wf_nums b W) IK) as GK. rewrite GK in *.
  set (cols' := py_insert pos (lower name) (remove1 str_eqb (lower name) cols)) in *.
  assert (MV : moved str_eqb (lower name) pos cols cols') by (apply moved_insert; auto using str_eqb_spec).
  assert (KK : In k (dkeys (b_loops b))) by (change k with (fst (k, cols)); now apply in_map).
  assert (SL : forall k2 c2, In (k2, c2) (dset Z.eqb k cols' (b_loops b)) <->
            (k2 = k /\ c2 = cols') \/ (In (k2, c2) (b_loops b) /\ k2 <> k)).
  { intros k2 c2. rewrite dset_In_iff by (auto; apply (wf_nums b W)). cbn [fst]. split.
    - intros [[= -> ->]|X]; auto.
    - intros [[-> ->]|X]; auto. }
  eexists. exists cols'. split; [reflexivity|]. split; [assumption|]. cbn [fst] in W'. split; [|split].
  - eapply (wf_get_loop _ name k _ W').
    + cbn [b_loops set_loops]. apply SL. auto.
    + destruct MV as [P _]. eapply Permutation_in; [symmetry; exact P|assumption].
  - intros m N. destruct (get_loop_names m b) as [cm|e] eqn:GM.
    + destruct (get_loop_names_In b m cm W GM) as (k2 & I2 & X2 & _).
      eapply (wf_get_loop _ m k2 _ W'); [|exact X2]. cbn [b_loops set_loops]. apply SL. right. split; [assumption|].
      intros ->. apply N. replace cols with cm; [assumption|]. eapply (wf_loops_unique_num b); eauto.
    + assert (F0 : find_loop m b = None).
      { unfold get_loop_names in GM. destruct (find_loop m b) as [k2|] eqn:F; [|reflexivity].
        destruct (wf_loop_get b m k2 W F) as (l1 & c' & l2 & E1 & E2 & E3 & _). rewrite E2 in GM. discriminate. }
      assert (e = KeyErr) by (unfold get_loop_names in GM; rewrite F0 in GM; congruence). subst e.
      unfold get_loop_names.
      match goal with |- match find_loop m ?B with _ => _ end = _ => assert (F1 : find_loop m B = None) end.
      { apply find_loop_None. apply find_loop_None in F0. intros I. cbn [b_loops set_loops] in I.
        apply in_concat in I as (c & I & X). apply in_map_iff in I as ([k2 c2] & F & I).
        cbn in F. subst c2. apply SL in I as [[-> ->]|[I _]].
        - destruct MV as [P _]. apply N. eapply Permutation_in; eauto.
        - apply F0. apply in_concat. exists c. split; [|assumption].
          change c with (snd (k2, c)). now apply in_map. }
      now rewrite F1.
  - reflexivity.
Qed.
