(** Storing a category that was not there: one loop with all the columns. *)
From Coq Require Import String Ascii List NArith ZArith Bool PeanoNat Lia Permutation.
From Verif Require Import PyBase PyFacts StarBlockModel StarBlockSpec StarBlockProofs StarBlockProofs2 StarBlockProofs3 StarBlockProofs4 StarBlockProofs5 LoopModel ValidateModel TreeModel DeriveModel DeriveSpec DeriveProofs DeriveProofs3 DeriveProofs4 DeriveProofs5 DeriveProofs6 PullbackSpec PullbackProofs PullbackProofs2.
Import ListNotations.
Open Scope nat_scope.

Lemma wf_in_loop b j names n : WF b -> dget Z.eqb j (b_loops b) = Some names -> In (lower n) names -> find_loop n b = Some j.
Proof.
  intros W G I. destruct (find_loop n b) as [q|] eqn:F.
  - f_equal. destruct (wf_loop_get b n q W F) as (l1 & ns & l2 & E1 & E2 & E3 & _). pose proof (wf_place b W) as P. assert (NoDup (concat (map snd (b_loops b)))) as N.
    { apply Permutation_sym in P. pose proof (Permutation_NoDup P (wf_keys b W)) as N. unfold printed_names in N. now apply NoDup_app_iff in N as (_ & N & _). }
    apply (dget_In Z.eqb Z.eqb_spec) in G. rewrite E1 in G, N. rewrite map_app, concat_app in N. cbn [map concat snd] in N. apply NoDup_app_iff in N as (N1 & N2 & N3). apply NoDup_app_iff in N2 as (_ & N4 & N5).
    assert (forall l, In (j, names) l -> In (lower n) (concat (map snd l))) as C. { intros l H. apply in_concat. exists names. split; [now apply (in_map snd) in H|exact I]. }
    apply in_app_or in G as [G|[G|G]].
    + exfalso. apply (N3 (lower n) (C _ G)). apply in_or_app. now left.
    + injection G as ->. reflexivity.
    + exfalso. exact (N5 (lower n) E3 (C _ G)).
  - exfalso. apply find_loop_None in F. apply F. apply in_concat. exists names. split; [|exact I]. apply (dget_In Z.eqb Z.eqb_spec) in G. now apply (in_map snd) in G.
Qed.
(** A new column in the block. *)
Lemma fresh_add n v b : WF b -> has_key n b = false -> check_data_name (b_max b) (b_uni b) n = Ret tt -> acceptable_value (b_uni b) v ->
  exists b', add_item n v false b = (b', Ret tt) /\ WF b' /\ get_item n b' = Ret v /\ find_loop n b' = None /\ b_loops b' = b_loops b /\ b_max b' = b_max b /\ b_uni b' = b_uni b /\
  (forall k, lower k <> lower n -> has_key k b' = has_key k b) /\ (forall k, k <> lower n -> same_at k b b').
Proof.
  intros W K C A. destruct (set_item_succeeds n v b C A) as [b2 E]; [congruence|]. apply set_item_ok in E. exists b2. split; [exact E|].
  assert (fst (add_item n v false b) = b2) as FB by now rewrite E. split; [rewrite <- FB; now apply add_item_wf|]. split; [now apply added_read in E|].
  pose proof (add_item_settings n v false b) as [S1 S2]. rewrite FB in S1, S2. pose proof E as E'. apply add_item_ok in E' as (e & _ & _ & _ & _ & EQ).
  assert (b_loops b2 = b_loops b) as BL by (rewrite EQ; reflexivity). split.
  { unfold find_loop. rewrite BL. destruct (find_loop n b) as [q|] eqn:FK; [|exact FK]. apply wf_find_loop_key in FK; auto. congruence. }
  split; [exact BL|]. split; [exact S1|]. split; [exact S2|].
  assert (forall k, k <> lower n -> same_at k b b2) as SA by (intros; rewrite <- FB; now apply add_item_same). split; [|exact SA].
  intros k N. destruct (SA _ N) as (X & _). unfold has_key, dmem. now rewrite X.
Qed.
(** It joins a loop. *)
Lemma joins m n j names col vals b : WF b -> dget Z.eqb j (b_loops b) = Some names -> In (lower m) names -> get_item m b = Ret (VList col) -> get_item n b = Ret (VList vals) -> length vals = length col -> find_loop n b = None ->
  exists b', add_loop_name m n b = (b', Ret tt) /\ WF b' /\ b_data b' = b_data b /\ dget Z.eqb j (b_loops b') = Some (names ++ [lower n]) /\ b_max b' = b_max b /\ b_uni b' = b_uni b.
Proof.
  intros W G I GM GN L F. pose proof (wf_in_loop _ _ _ _ W G I) as FM.
  assert (mem str_eqb (lower n) names = false) as M. { apply (mem_false _ str_eqb_spec). intros J. pose proof (wf_in_loop _ _ _ _ W G J). congruence. }
  pose proof (add_loop_name_wf m n b W) as W'. unfold add_loop_name in *. rewrite FM, G, M, GM, GN in *. cbn [obind py_len] in *. rewrite L, Nat.eqb_refl in *. cbn [negb] in *. cbv zeta in *.
  eexists. split; [reflexivity|]. split; [exact W'|]. split; [reflexivity|]. split; [|split; reflexivity]. cbn [b_loops set_loops]. apply dget_dset_eq. exact Z.eqb_spec.
Qed.
Lemma add_loop_name_others k o n b : WF b -> lower k = k -> k <> lower n -> same_at k b (fst (add_loop_name o n b)).
Proof. exact (add_loop_name_same k o n b). Qed.
(** Or makes one of its own. *)
Lemma starts n vals b : WF b -> get_item n b = Ret (VList vals) -> 
  exists b' j, create_loop [n] (-1) true b = (b', Ret tt) /\ WF b' /\ b_data b' = b_data b /\ dget Z.eqb j (b_loops b') = Some [lower n] /\ b_max b' = b_max b /\ b_uni b' = b_uni b.
Proof.
  intros W G. assert (loop_length_check [n] b = (b, Ret tt)) as LC. { unfold loop_length_check. cbn [get_items]. rewrite G. reflexivity. }
  assert (distinct_names [n]) as DN by (repeat constructor; intros []). pose proof (create_loop_wf [n] (-1)%Z b W DN) as W'.
  rewrite (create_loop_success _ _ _ _ W LC) in *. eexists. exists (new_loop_no (loops_without [lower n] (b_loops b))). split; [reflexivity|]. split; [exact W'|]. split; [reflexivity|]. split; [|split; reflexivity].
  cbn [fst] in W'. pose proof (wf_nums _ W') as N. clear W'. unfold loop_tables in *. cbn [b_loops set_loops map] in *. set (ls := loops_without _ _) in *. clearbody ls. generalize dependent (new_loop_no ls). intros no N.
  clear -N. induction ls as [|[k ns] ls IH]; cbn [app dget]; [now rewrite Z.eqb_refl|]. unfold dkeys in *. cbn [map app fst] in N.
  destruct (Z.eqb_spec no k) as [->|_]; [|apply IH; now inversion N]. exfalso. inversion N as [|? ? X _]. apply X. rewrite map_app. apply in_or_app. right. now left.
Qed.

Section Table.
Variables (d : ddict) (cat : str) (rows : nat).
Definition column_ok (b : block) (nv : str * value) : Prop := lower (fst nv) = fst nv /\ category_of d (fst nv) = Ret cat /\ check_data_name (b_max b) (b_uni b) (fst nv) = Ret tt /\
  exists l, snd nv = VList l /\ length l = rows /\ acceptable_value (b_uni b) (VList (map conv_elem l)).
Definition elems (v : value) : value := match v with VList l => VList (map conv_elem l) | _ => v end.
Lemma cat_member n : category_of d n = Ret cat -> lower n = n -> In n (cat_names d cat).
Proof.
  unfold category_of, def_of. intros C L. rewrite L in C. destruct (dget str_eqb n (dd_defs d)) as [t|] eqn:G; [|discriminate]. cbn [obind] in C. destruct (tget a_category t) as [[c| | | | |]|] eqn:A; try discriminate. injection C as ->.
  unfold cat_names. change n with (fst (n, t)). apply in_map. apply filter_In. split; [now apply (dget_In str_eqb str_eqb_spec)|]. cbn [snd]. rewrite A. cbn [veq_text]. apply str_eqb_refl.
Qed.
(** [done] are the columns of loop [j]. *)
Record inv (b0 : block) (j : Z) (done : list (str * value)) (b : block) : Prop := mkInv {
  i_wf : WF b;
  i_max : b_max b = b_max b0;
  i_uni : b_uni b = b_uni b0;
  i_loop : dget Z.eqb j (b_loops b) = Some (map fst done);
  i_vals : forall n v, In (n, v) done -> get_item n b = Ret (elems v);
  i_cat : forall k, In k (cat_names d cat) -> has_key k b = true -> In (lower k) (map fst done);
  i_old : forall k, lower k = k -> has_key k b0 = true -> same_at k b0 b }.
Lemma filter_head {A} (f : A -> bool) l x : In x l -> f x = true -> exists y r, filter f l = y :: r /\ In y l /\ f y = true.
Proof. intros I F. destruct (filter f l) as [|y r] eqn:E; [|exists y, r; split; auto; apply filter_In; rewrite E; now left]. assert (In x []) as J by (rewrite <- E; apply filter_In; auto). destruct J. Qed.
Lemma column_stored b0 j done b n v : done <> [] -> inv b0 j done b -> column_ok b0 (n, v) -> Forall (column_ok b0) done -> ~ In n (map fst done) -> has_key n b0 = false ->
  exists b', store_looped d n v false b = (b', Ok (elems v)) /\ inv b0 j (done ++ [(n, v)]) b'.
Proof.
  intros ND [W MX UN LP VA CA OL] (LN & CN & NM & l & EV & LE & AC) DN NI NH. cbn [fst snd] in *. subst v. cbn [elems].
  destruct done as [|[m vm] done]; [contradiction|]. inversion DN as [|? ? (LM & CM & _ & lm & EM & LEM & _) _]. subst. cbn [fst snd] in *. subst vm.
  assert (has_key n b = false) as HN. { destruct (has_key n b) eqn:H; [|reflexivity]. exfalso. apply NI. rewrite <- LN. apply CA; [now apply cat_member|exact H]. }
  rewrite <- MX, <- UN in NM. rewrite <- UN in AC. destruct (fresh_add n (VList (map conv_elem l)) b W HN NM AC) as (b1 & E1 & W1 & G1 & F1 & BL & X1 & X2 & H1 & S1).
  assert (has_key m b = true) as HM. { eapply get_item_key. apply VA. now left. }
  destruct (filter_head (fun a => has_key a b) (cat_names d cat) m (cat_member m CM LM) HM) as (m' & r & FR & IM' & HM').
  pose proof (CA m' IM' HM') as JM. apply in_map_iff in JM as ([m2 v2] & E2 & J2). cbn [fst] in E2. subst m2.
  pose proof (VA _ _ J2) as GM. assert (exists c, v2 = VList c /\ length c = length lm) as (c & -> & LC).
  { rewrite Forall_forall in DN. destruct (DN _ J2) as (_ & _ & _ & c & EC & LC & _). cbn [snd] in EC. exists c. split; [exact EC|congruence]. }
  cbn [elems] in GM.
  assert (lower m' <> lower n) as NMN. { intros X. rewrite X, LN in J2. apply NI. apply (in_map fst) in J2. exact J2. }
  assert (get_item m' b1 = Ret (VList (map conv_elem c))) as GM1. { rewrite <- GM. transitivity (get_item m' b); [apply get_item_data; apply S1; congruence|]. rewrite !get_full_entry. rewrite lower_idem.
    destruct (str_eqb_spec (lower m') (u "saves")) as [Q|Q]. { exfalso. rewrite Q in GM. vm_compute in GM. discriminate GM. } destruct (str_eqb_spec m' (u "saves")) as [Q'|Q']; [|reflexivity]. subst m'. exfalso. apply Q. reflexivity. }
  destruct (joins m' n j (m :: map fst done) (map conv_elem c) (map conv_elem l) b1 W1) as (b2 & E3 & W2 & D2 & G2 & Y1 & Y2); try assumption.
  { now rewrite BL. } { apply (in_map fst) in J2. exact J2. } { now rewrite !map_length, LC, LEM. }
  exists b2. split.
  { unfold store_looped. rewrite (lift_eq _ _ _ cat CN). rewrite (bind_eq _ _ b b (VList (map conv_elem l))) by reflexivity. erewrite bind_eq by reflexivity. rewrite FR.
    rewrite (bind_eq _ _ b b1 tt) by (unfold change; now rewrite E1). rewrite (bind_eq _ _ b1 b2 tt) by (unfold change; now rewrite E3). reflexivity. }
  assert (forall k, lower k = k -> k <> n -> same_at k b b2) as SA.
  { intros k LK N. apply (same_at_trans k b b1 b2). { apply S1. now rewrite LN. } change b2 with (fst (b2, @Ret unit tt)). rewrite <- E3. apply add_loop_name_same; auto. now rewrite LN. }
  split; auto; try congruence.
  - rewrite G2, map_app. cbn [map fst app]. now rewrite LN.
  - intros n0 v0 I. apply in_app_or in I as [I|[I|[]]].
    + rewrite <- (VA _ _ I). apply get_item_data. rewrite Forall_forall in DN. destruct (DN _ I) as (L0 & _). cbn [fst] in L0. rewrite L0. apply SA; auto. intros ->. apply NI. now apply (in_map fst) in I.
    + injection I as <- <-. transitivity (get_item n b1); [apply get_item_data; now rewrite D2|exact G1].
  - intros k IK HK. rewrite map_app. apply in_or_app. destruct (str_eqb_spec (lower k) n) as [E|NE]; [right; now left|]. left. apply CA; [exact IK|]. rewrite <- H1 by now rewrite LN. unfold has_key in *. now rewrite D2 in HK.
  - intros k LK HK. apply (same_at_trans k b0 b b2); [now apply OL|]. apply SA; auto. intros ->. congruence.
Qed.
Lemma first_stored b n v : WF b -> column_ok b (n, v) -> (forall k, In k (cat_names d cat) -> has_key k b = false) ->
  exists b' j, store_looped d n v false b = (b', Ok (elems v)) /\ inv b j [(n, v)] b'.
Proof.
  intros W (LN & CN & NM & l & EV & LE & AC) NP. cbn [fst snd] in *. subst v. pose proof (NP n (cat_member n CN LN)) as HN.
  destruct (fresh_add n (VList (map conv_elem l)) b W HN NM AC) as (b1 & E1 & W1 & G1 & F1 & BL & X1 & X2 & H1 & S1).
  destruct (starts n (map conv_elem l) b1 W1 G1) as (b2 & j & E3 & W2 & D2 & G2 & Y1 & Y2). exists b2, j. cbn [elems]. split.
  { unfold store_looped. rewrite (lift_eq _ _ _ cat CN). rewrite (bind_eq _ _ b b (VList (map conv_elem l))) by reflexivity. erewrite bind_eq by reflexivity. rewrite (filter_none (fun a => has_key a b) (cat_names d cat) NP).
    rewrite (bind_eq _ _ b b1 tt) by (unfold change; now rewrite E1). rewrite (bind_eq _ _ b1 b2 tt) by (unfold change; now rewrite E3). reflexivity. }
  split; auto; try congruence.
  - rewrite G2. cbn [map fst]. now rewrite LN.
  - intros n0 v0 [I|[]]. injection I as <- <-. transitivity (get_item n b1); [apply get_item_data; now rewrite D2|exact G1].
  - intros k IK HK. left. cbn [fst]. destruct (str_eqb_spec (lower k) n) as [E|NE]; [congruence|]. exfalso. pose proof (NP k IK) as X. rewrite <- H1 in X by now rewrite LN. unfold has_key in *. rewrite D2 in HK. congruence.
  - intros k LK HK. assert (k <> lower n) as N. { intros ->. rewrite has_key_lower in HK. congruence. } apply (same_at_trans k b b1 b2); [now apply S1|]. change b2 with (fst (b2, @Ret unit tt)). rewrite <- E3. now apply create_loop_same.
Qed.
Lemma rest_stored b0 j : forall more done b, done <> [] -> inv b0 j done b -> Forall (column_ok b0) (done ++ more) -> NoDup (map fst (done ++ more)) -> (forall k, In k (cat_names d cat) -> has_key k b0 = false) ->
  exists b', store_columns d more b = (b', Ok tt) /\ inv b0 j (done ++ more) b'.
Proof.
  induction more as [|[n v] more IH]; intros done b ND I F N NP. { exists b. split; [reflexivity|]. now rewrite app_nil_r. }
  pose proof F as F'. apply Forall_app in F' as [FD FM]. inversion FM as [|? ? C _]. subst.
  destruct (column_stored b0 j done b n v) as (b1 & E1 & I1); auto.
  { rewrite map_app in N. cbn [map fst] in N. apply NoDup_remove_2 in N. intros X. apply N, in_or_app. now left. }
  { apply NP. destruct C as (LN & CN & _). now apply cat_member. }
  destruct (IH (done ++ [(n, v)]) b1) as (b2 & E2 & I2); auto; try (rewrite <- app_assoc; auto). { destruct done; discriminate. }
  exists b2. split; [|rewrite <- app_assoc in I2; exact I2]. cbn [store_columns]. rewrite E1. exact E2.
Qed.
(** The keys are moved to the front. *)
Lemma key_first b j names k : WF b -> dget Z.eqb j (b_loops b) = Some names -> In k names -> lower k = k -> 
  exists b', change_item_order (ON k) 0 b = (b', Ret tt) /\ WF b' /\ dget Z.eqb j (b_loops b') = Some (k :: remove1 str_eqb k names) /\ b_data b' = b_data b /\ b_true b' = b_true b /\ (forall x, lower x = x -> same_at x b b').
Proof.
  intros W G I L. pose proof (change_item_order_wf (ON k) 0 b W) as W'. assert (find_loop k b = Some j) as F by (apply (wf_in_loop b j names); auto; now rewrite L).
  assert (forall x, lower x = x -> same_at x b (fst (change_item_order (ON k) 0 b))) as SA by (intros; now apply change_order_same).
  cbn [change_item_order] in *. rewrite F, G, L in *. eexists. split; [reflexivity|]. split; [exact W'|]. split; [|split; [reflexivity|]; split; [reflexivity|exact SA]]. cbn [b_loops set_loops]. rewrite (dget_dset_eq Z.eqb Z.eqb_spec). unfold py_insert. cbv zeta. replace (clamp_pos _ 0%Z) with 0 by (unfold clamp_pos; destruct (Z.ltb_spec 0 0); lia). reflexivity.
Qed.
Lemma keys_moved j : forall keys names b, WF b -> dget Z.eqb j (b_loops b) = Some names -> NoDup names -> (forall k, In k keys -> In k names /\ lower k = k) ->
  exists b' names', keys_first keys b = (b', Ok tt) /\ WF b' /\ dget Z.eqb j (b_loops b') = Some names' /\ Permutation names' names /\ b_data b' = b_data b /\ b_true b' = b_true b /\ (forall x, lower x = x -> same_at x b b') /\
  (forall k, last keys k = k -> keys <> [] -> exists r, names' = k :: r).
Proof.
  induction keys as [|k keys IH]; intros names b W G N H.
  - exists b, names. split; [reflexivity|]. repeat (split; auto using same_at_refl). intros k _ []. reflexivity.
  - destruct (H k) as [I L]; [now left|]. destruct (key_first b j names k W G I L) as (b1 & E1 & W1 & G1 & D1 & T1 & S1).
    assert (Permutation (k :: remove1 str_eqb k names) names) as P by (apply remove1_perm; auto using str_eqb_spec).
    destruct (IH (k :: remove1 str_eqb k names) b1 W1 G1) as (b2 & names' & E2 & W2 & G2 & P2 & D2 & T2 & S2 & L2).
    { apply Permutation_sym in P. now apply (Permutation_NoDup P). } { intros x J. destruct (H x) as [Q1 Q2]; [now right|]. split; [|exact Q2]. apply Permutation_sym in P. now apply (Permutation_in x P). }
    exists b2, names'. split. { cbn [keys_first]. rewrite (bind_eq _ _ b b1 tt) by (unfold change; now rewrite E1). exact E2. }
    split; [exact W2|]. split; [exact G2|]. split; [now transitivity (k :: remove1 str_eqb k names)|]. split; [congruence|]. split; [congruence|]. split; [intros x X; apply (same_at_trans x b b1 b2); auto|].
    intros x LX _. destruct keys as [|k2 keys]; [|apply L2; [exact LX|discriminate]]. cbn [last] in LX. subst k. cbn [keys_first] in E2. injection E2 as <-. rewrite G1 in G2. injection G2 as <-. eexists. reflexivity.
Qed.
Lemma key_names_ok : forall l, (forall n, In n l -> category_of d n = Ret cat) -> exists keys, key_names d l = Ret keys /\ forall k, In k keys <-> In k l /\ exists t, def_of d k = Ret t /\ tget (u "_type.purpose") t = Some (VStr (u "Key")).
Proof.
  induction l as [|n l IH]; intros H; [exists []; split; [reflexivity|]; intros k; split; [intros []|intros [[] _]]|].
  destruct IH as (keys & E & K); [intros; apply H; now right|]. assert (category_of d n = Ret cat) as C by (apply H; now left). unfold category_of in C. cbn [key_names]. destruct (def_of d n) as [t|] eqn:D; [|discriminate]. cbn [obind]. rewrite E. cbn [obind]. eexists. split; [reflexivity|].
  assert (forall o, veq_text o (u "Key") = true <-> o = Some (VStr (u "Key"))) as V. { intros [[s| | | | |]|]; cbn [veq_text]; try (split; discriminate). destruct (str_eqb_spec s (u "Key")) as [->|Z]; split; auto; try discriminate. intros [=]. contradiction. }
  intros k. destruct (veq_text _ _) eqn:Q.
  - apply V in Q. cbn [In]. rewrite K. split; [intros [<-|[I X]]; [split; [now left|eauto]|split; [now right|exact X]]|]. intros [[<-|I] X]; [now left|right; now split].
  - rewrite K. cbn [In]. split; [intros [I X]; split; [now right|exact X]|]. intros [[<-|I] X]; [|now split]. exfalso. destruct X as (t' & D' & P). rewrite D in D'. injection D' as <-. apply V in P. congruence.
Qed.
Theorem stored_table cols b : WF b -> cols <> [] -> NoDup (map fst cols) -> Forall (column_ok b) cols -> (forall k, In k (cat_names d cat) -> has_key k b = false) ->
  exists b1 names, stored d cat cols b = (b1, Ok cols) /\ WF b1 /\ Permutation names (map fst cols) /\
  (forall n v, In (n, v) cols -> get_item n b1 = Ret (elems v) /\ get_loop_names n b1 = Ret names) /\
  (forall k, In k (map fst cols) -> (forall k', In k' (map fst cols) -> (k' = k <-> exists t, def_of d k' = Ret t /\ tget (u "_type.purpose") t = Some (VStr (u "Key")))) -> exists r, names = k :: r) /\ kept b b1.
Proof.
  intros W NE N F NP. destruct cols as [|[n v] cols]; [contradiction|]. inversion F as [|? ? C _]. subst.
  destruct (first_stored b n v W C NP) as (b1 & j & E1 & I1). destruct (rest_stored b j cols [(n, v)] b1) as (b2 & E2 & I2); auto; [discriminate|]. change ([(n, v)] ++ cols) with ((n, v) :: cols) in I2. destruct I2 as [W2 MX UN LP VA CA OL].
  assert (forall x, In x (map fst ((n, v) :: cols)) -> category_of d x = Ret cat /\ lower x = x) as CC. { intros x I. apply in_map_iff in I as (nv & <- & I). rewrite Forall_forall in F. destruct (F _ I) as (X1 & X2 & _). now split. }
  destruct (key_names_ok (map fst ((n, v) :: cols))) as (keys & EK & HK); [intros; now apply CC|].
  destruct (keys_moved j keys _ b2 W2 LP N) as (b3 & names & E3 & W3 & G3 & P3 & D3 & T3 & S3 & L3). { intros k I. apply HK in I as [I _]. split; [exact I|now apply CC]. }
  exists b3, names. split.
  { unfold stored. unfold store_cat. rewrite (lift_eq _ _ _ keys EK). rewrite (bind_eq _ _ b b false).
    - rewrite (bind_eq _ _ b b true) by reflexivity. rewrite (bind_eq _ _ b b2 tt) by (cbn [store_columns]; rewrite E1; exact E2). now rewrite E3.
    - unfold look. f_equal. f_equal. apply not_true_is_false. rewrite existsb_exists. intros (x & I & H). destruct (CC x I) as [X1 X2]. rewrite (NP x) in H; [discriminate|]. now apply cat_member. }
  split; [exact W3|]. split; [exact P3|]. split.
  { intros x w I. split; [rewrite <- (VA _ _ I); apply get_item_data; now rewrite D3|]. unfold get_loop_names. assert (In x (map fst ((n, v) :: cols))) as J by now apply (in_map fst) in I. destruct (CC x J) as [_ LX].
    rewrite (wf_in_loop b3 j names x W3 G3); [now rewrite G3|]. rewrite LX. apply Permutation_sym in P3. now apply (Permutation_in x P3). }
  split.
  { intros k I U. assert (In k keys) as IK. { apply HK. split; [exact I|]. now apply (U k I). } assert (forall x, In x keys -> x = k) as AK. { intros x J. apply HK in J as [J1 J2]. now apply (U x J1). }
    apply L3; [|intros ->; destruct IK]. assert (last keys k = k \/ In (last keys k) keys) as [Q|Q]; [|exact Q|now apply AK]. clear -IK. clear IK. induction keys as [|a keys IH]; [now left|]. destruct keys as [|a2 keys]; [right; now left|]. destruct IH as [IH|IH]; [left; exact IH|right; right; exact IH]. }
  intros k e G. assert (lower k = k) as LK. { apply (wf_low b W). unfold b_keys, dkeys. apply (dget_In str_eqb str_eqb_spec) in G. now apply (in_map fst) in G. }
  assert (has_key k b = true) as H. { unfold has_key, dmem. now rewrite LK, G. }
  destruct (same_at_trans k b b2 b3 (OL k LK H) (S3 k LK)) as (Q1 & Q2 & Q3). split; [congruence|]. split; assumption.
Qed.
End Table.
