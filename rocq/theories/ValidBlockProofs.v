(** Proofs about the block that checks its items. *)
From Coq Require Import String Ascii List NArith ZArith Bool Lia.
From Verif Require Import PyBase PyFacts StarBlockModel StarBlockSpec StarBlockProofs StarBlockProofs3 StarBlockProofs5 ValidateModel ValidateSpec ValidateProofs3 ValidateProofs4 ValidBlockModel ValidBlockSpec.
Import ListNotations.
Open Scope nat_scope.

Lemma obind_ret {A B} (o : outcome A) (f : A -> outcome B) r : obind o f = Ret r -> exists x, o = Ret x /\ f x = Ret r.
Proof. destruct o; cbn; [eauto|discriminate]. Qed.

Lemma failed_spec x : failed x = true <-> is_false (snd x).
Proof.
  unfold failed, is_false. destruct (snd x) as [| |v l]; split; try discriminate; try (intros (? & ? & ?); discriminate); eauto.
Qed.

Lemma run_all_map {F} (call : F -> outcome result) fs rs : run_all call fs = Ret rs ->
  Forall2 (fun nf x => fst x = fst nf /\ call (snd nf) = Ret (snd x)) fs rs.
Proof.
  revert rs. induction fs as [|[n f] r IH]; intros rs; cbn [run_all].
  - intros [= <-]. constructor.
  - intros H. apply obind_ret in H as (x & E & H). apply obind_ret in H as (xs & E2 & H). injection H as <-.
    constructor; [now split|auto].
Qed.

Lemma run_all_pass {F} (call : F -> outcome result) fs :
  (exists rs, run_all call fs = Ret rs /\ filter failed rs = []) <-> forall n f, In (n, f) fs -> passed (call f).
Proof.
  induction fs as [|[n f] r IH]; cbn [run_all].
  - split; [intros _ ? ? []|intros _; exists []; now split].
  - split.
    + intros (rs & H & N) m g I. apply obind_ret in H as (x & E & H). apply obind_ret in H as (xs & E2 & H). injection H as <-.
      cbn [filter] in N. destruct (failed (n, x)) eqn:K; [discriminate|].
      destruct I as [I|I].
      * injection I as <- <-. exists x. split; [assumption|]. intros C. apply (proj2 (failed_spec (n, x))) in C. congruence.
      * apply (proj1 IH (ex_intro _ xs (conj E2 N)) m g I).
    + intros H. destruct (H n f (or_introl eq_refl)) as (x & E & K).
      destruct (proj2 IH (fun m g I => H m g (or_intror I))) as (xs & E2 & N).
      exists ((n, x) :: xs). rewrite E. cbn [obind]. rewrite E2. cbn [obind]. split; [reflexivity|].
      cbn [filter]. destruct (failed (n, x)) eqn:C; [|assumption]. apply failed_spec in C. contradiction.
Qed.

Lemma read_all_spec ks b t : read_all ks b = Ret t <-> Forall2 (fun k kv => fst kv = k /\ get_item k b = Ret (snd kv)) ks t.
Proof.
  revert t. induction ks as [|k r IH]; intros t; cbn [read_all].
  - split; [intros [= <-]; constructor|intros H; now inversion H].
  - split.
    + intros H. apply obind_ret in H as (v & E & H). apply obind_ret in H as (x & E2 & H). injection H as <-.
      constructor; [now split|]. now apply IH.
    + intros H. inversion H as [|? [k' v] ? x (E & G) R]; subst. cbn [fst snd] in *. rewrite G. cbn [obind].
      apply IH in R. rewrite R. cbn [obind]. reflexivity.
Qed.
Lemma view_spec b t : view b = Ret t <-> shows b t.
Proof. apply read_all_spec. Qed.

Lemma map_nil {A B} (f : A -> B) l : map f l = [] <-> l = [].
Proof. destruct l; split; try discriminate; reflexivity. Qed.

Lemma single_spec d k v : single_item_check d k v = Ret [] <-> item_ok d k v.
Proof.
  unfold single_item_check, item_ok. destruct (v_in d k); cbn [negb].
  - split.
    + intros H _. apply obind_ret in H as (l & E & H). injection H as H. apply map_nil in H.
      apply (proj1 (run_all_pass (fun f => f k v) (v_item d))). eauto.
    + intros H. destruct (proj2 (run_all_pass (fun f => f k v) (v_item d)) (H eq_refl)) as (l & E & N).
      rewrite E. cbn [obind]. now rewrite N.
  - split; [discriminate|reflexivity].
Qed.
Lemma global_spec d k v b : global_item_check d k v [] b = Ret [] <-> global_ok d k v b.
Proof.
  unfold global_item_check, global_ok. destruct (v_in d k); cbn [negb].
  - split.
    + intros H _. apply obind_ret in H as (t & V & H). apply obind_ret in H as (l & E & H). injection H as H. apply map_nil in H.
      exists t. split; [now apply view_spec|]. apply (proj1 (run_all_pass (fun f => f k v t []) (v_global d))). eauto.
    + intros H. destruct (H eq_refl) as (t & V & P). apply view_spec in V. rewrite V. cbn [obind].
      destruct (proj2 (run_all_pass (fun f => f k v t []) (v_global d)) P) as (l & E & N).
      change (run_all (fun f : str -> value -> table -> table -> outcome result => f k v t []) (v_global d) = Ret l) in E.
      unfold table in *. rewrite E. cbn [obind]. now rewrite N.
  - split; [discriminate|reflexivity].
Qed.
Lemma report_spec l u0 : report_if_invalid l = Ret u0 <-> l = [].
Proof. destruct l, u0; cbn; split; try discriminate; reflexivity. Qed.
Lemma checks_spec d k v b : item_checks d k v b = Ret tt <-> item_ok d k v /\ global_ok d k v b.
Proof.
  unfold item_checks. rewrite <- single_spec, <- global_spec. split.
  - intros H. apply obind_ret in H as (l & E & H). apply obind_ret in H as (u0 & R & H). apply report_spec in R. subst l.
    apply obind_ret in H as (l2 & E2 & H). apply report_spec in H. subst l2. now split.
  - intros (E & E2). rewrite E. cbn [obind report_if_invalid]. now rewrite E2.
Qed.

Lemma valid_add_exact d k v pre b b' :
  valid_add d k v pre b = (b', Ret tt) <-> (item_ok d k v /\ global_ok d k v b) /\ add_item k v pre b = (b', Ret tt).
Proof.
  unfold valid_add. rewrite <- checks_spec. destruct (item_checks d k v b) as [[]|e].
  - split; [now split|now intros (_ & H)].
  - split; [discriminate|now intros (H & _)].
Qed.
Lemma valid_add_err d k v pre b b' e : valid_add d k v pre b = (b', Raise e) -> b' = b.
Proof.
  unfold valid_add. destruct (item_checks d k v b) as [[]|e'].
  - apply add_item_err.
  - congruence.
Qed.
(** A failing check refuses the item. *)
Lemma valid_add_refuses d k v pre b : v_in d k = true ->
  (forall n f, In (n, f) (v_item d) -> exists r, f k v = Ret r) ->
  (exists n f r, In (n, f) (v_item d) /\ f k v = Ret r /\ is_false r) -> valid_add d k v pre b = (b, Raise CifErr).
Proof.
  intros I A (n & f & r & F & E & X). unfold valid_add, item_checks, single_item_check. rewrite I. cbn [negb].
  assert (R : exists rs, run_all (fun g => g k v) (v_item d) = Ret rs /\ filter failed rs <> []).
  { clear I. induction (v_item d) as [|[m g] l IH]; [contradiction F|]. cbn [run_all].
    destruct (A m g (or_introl eq_refl)) as (x & Ex). rewrite Ex. cbn [obind].
    destruct F as [F|F].
    - injection F as -> ->. assert (x = r) by congruence. subst x.
      assert (T : exists rs, run_all (fun g => g k v) l = Ret rs).
      { clear - A. induction l as [|[m h] l IHl]; [now exists []|]. cbn [run_all].
        destruct (A m h (or_intror (or_introl eq_refl))) as (y & Ey). rewrite Ey. cbn [obind].
        destruct IHl as (ys & Eys). { intros a c [H|H]; apply (A a c); [now left|right; now right]. }
        rewrite Eys. cbn [obind]. eauto. }
      destruct T as (rs & ->). cbn [obind]. eexists. split; [reflexivity|]. cbn [filter].
      rewrite (proj2 (failed_spec (n, r)) X). discriminate.
    - destruct (IH (fun a c H => A a c (or_intror H)) F) as (rs & -> & N). cbn [obind].
      eexists. split; [reflexivity|]. cbn [filter]. destruct (failed (m, x)); [discriminate|assumption]. }
  destruct R as (rs & -> & N). cbn [obind]. destruct (filter failed rs) as [|y ys]; [congruence|]. reflexivity.
Qed.

(** ** Every item stays valid *)
Lemma item_ok_ext d k k' v : case_blind d -> lower k = lower k' -> item_ok d k v -> item_ok d k' v.
Proof.
  intros C E H I n f F. destruct (C k k' E) as (V & X). rewrite <- (X n f v F). apply (H ltac:(congruence) n f F).
Qed.
Lemma add_item_read k v b b' k' : add_item k v false b = (b', Ret tt) -> lower k' = lower k -> get_item k' b' = Ret v.
Proof.
  intros H. apply (set_item_read k v b b' k'). unfold set_item. pose proof (add_item_ok _ _ _ _ H) as (e & C & _).
  destruct (check_data_name_us _ _ _ C) as (r & ->). exact H.
Qed.
Lemma valid_add_keeps d k v b : case_blind d -> sound d b -> sound d (fst (valid_add d k v false b)).
Proof.
  intros C (N & V). destruct (valid_add d k v false b) as [b' [[]|e]] eqn:E; cbn [fst].
  - apply valid_add_exact in E as ((O & _) & E). split.
    + destruct (add_item_ok _ _ _ _ E) as (e & _ & _ & _ & _ & ->). unfold b_keys, store_item. cbn [b_data].
      apply (NoDup_dset str_eqb str_eqb_spec). exact N.
    + intros k2 v2 G.
      destruct (str_eqb_spec (lower k2) (lower k)) as [L|L].
      * rewrite (add_item_read _ _ _ _ k2 E L) in G. injection G as <-. now apply (item_ok_ext d k k2 v C).
      * apply V. rewrite <- G. symmetry. apply get_item_data.
        pose proof (add_item_frame k v false b (lower k2) L) as F. rewrite E in F. exact F.
  - apply valid_add_err in E. subst. now split.
Qed.
Lemma same_data_keeps d b b' : b_data b' = b_data b -> sound d b -> sound d b'.
Proof.
  intros E (N & V). split; [unfold b_keys; now rewrite E|].
  intros k v G. apply V. rewrite <- G. symmetry. apply get_item_data. now rewrite E.
Qed.
Lemma listify_keeps d ns : case_blind d -> forall b, sound d b -> sound d (fst (valid_listify d ns b)).
Proof.
  intros C. induction ns as [|n r IH]; intros b V; cbn [valid_listify]; [exact V|].
  destruct (get_item n b) as [v|e]; [|exact V].
  pose proof (valid_add_keeps d n (VList [v]) b C V) as K.
  destruct (valid_add d n (VList [v]) false b) as [b' [[]|e]]; cbn [fst] in *; auto.
Qed.
Lemma length_check_keeps d ns b : case_blind d -> sound d b -> sound d (fst (valid_length_check d ns b)).
Proof.
  intros C V. unfold valid_length_check. destruct (get_items ns b) as [vs|e]; [|exact V]. cbv zeta.
  destruct (Nat.eqb _ _); [destruct (all_same_len vs); exact V|]. destruct (negb _); [exact V|]. now apply listify_keeps.
Qed.
Lemma valid_create_keeps d ns ord b : case_blind d -> sound d b -> sound d (fst (valid_create_loop d ns ord b)).
Proof.
  intros C V. unfold valid_create_loop. pose proof (length_check_keeps d ns b C V) as K.
  destruct (valid_length_check d ns b) as [b1 [[]|e]]; cbn [fst] in *; [|exact K].
  exact (same_data_keeps d b1 _ (create_loop_data ns ord false b1) K).
Qed.
Lemma remove_keeps d k b : sound d b -> sound d (fst (remove_item k b)).
Proof.
  intros (N & V). split.
  { unfold b_keys. rewrite remove_item_data. apply (NoDup_ddel str_eqb str_eqb_spec). exact N. }
  intros k2 v G. apply V. destruct (str_eqb_spec (lower k2) (lower k)) as [L|L].
  - exfalso. rewrite get_full_entry, remove_item_data, L, (dget_ddel_eq str_eqb str_eqb_spec) in G by exact N.
    destruct (str_eqb k2 (u "saves")); discriminate.
  - rewrite <- G. symmetry. apply get_item_data. rewrite remove_item_data. apply dget_ddel_neq; auto using str_eqb_spec.
Qed.
Lemma valid_del_present d k b : has_key k b = true -> exists e, valid_del d k b = (b, Raise e).
Proof.
  intros H. unfold valid_del. rewrite H. destruct (find_loop k b); [|eauto]. destruct (obind _ _); eauto.
Qed.
Lemma valid_to_loop d n kvs b : exists e, valid_add_to_loop d n kvs b = (b, Raise e).
Proof. unfold valid_add_to_loop. destruct kvs as [|[m v] r]; [eauto|]. destruct (single_item_check d m v); eauto. Qed.
Lemma run_vop_keeps d o b : case_blind d -> sound d b -> sound d (fst (run_vop d o b)).
Proof.
  intros C V. destruct o as [k v|k|k|ns ord|k v|n kvs]; cbn [run_vop].
  - now apply valid_add_keeps.
  - now apply remove_keeps.
  - destruct (has_key k b) eqn:H.
    + destruct (valid_del_present d k b H) as (e & ->). exact V.
    + unfold valid_del. rewrite H. now apply remove_keeps.
  - now apply valid_create_keeps.
  - unfold valid_add_cif_item. destruct (item_checks d k v b); [|exact V].
    unfold add_cif_item. destruct (py_list v) as [l|e]; [|exact V].
    pose proof (valid_add_keeps d k l b C V) as K. destruct (valid_add d k l false b) as [b' [[]|e]]; cbn [fst] in *; [|exact K].
    destruct (is_plain_list v); [|exact K]. now apply valid_create_keeps.
  - destruct (valid_to_loop d n kvs b) as (e & ->). exact V.
Qed.
Lemma run_vops_keeps d os : case_blind d -> forall b, sound d b -> sound d (run_vops d os b).
Proof.
  intros C. induction os as [|o r IH]; intros b V; [exact V|]. cbn [run_vops fold_left]. apply IH. now apply run_vop_keeps.
Qed.

(** ** AddCifItem of a CifBlock *)
Lemma cif_list_item name l b b' : WF b -> cif_add_cif_item name (VList l) b = (b', Ret tt) ->
  get_item name b' = Ret (VList l) /\ get_loop_names name b' = Ret [lower name].
Proof.
  intros W. unfold cif_add_cif_item, add_cif_item. cbn [py_list is_plain_list].
  pose proof (add_item_wf name (VList l) false b W) as W1.
  destruct (add_item name (VList l) false b) as [b1 [[]|e]] eqn:E; [|discriminate]. cbn [fst] in W1. intros H.
  pose proof (add_item_read _ _ _ _ name E eq_refl) as G.
  assert (D : distinct_names [name]) by (repeat constructor; intros []).
  destruct (create_loop_effect [name] (-1) b1 b' W1 D H) as (no & LC). split.
  - pose proof (create_loop_data [name] (-1) true b1) as K. rewrite H in K. cbn [fst] in K.
    rewrite <- G. apply get_item_data. rewrite K. unfold loop_length_check. cbn [get_items]. rewrite G. cbn [obind].
    cbn [filter is_plain_list length Nat.eqb]. destruct (all_same_len [VList l]); reflexivity.
  - exact (lc_new _ _ _ _ _ LC name (or_introl eq_refl)).
Qed.

(** A table becomes the loop of its keys. *)
Lemma cif_table_item name m b b' : WF b -> cif_add_cif_item name (VDict m) b = (b', Ret tt) ->
  get_item name b' = Ret (VList (map (fun kv => VStr (fst kv)) m)).
Proof.
  intros W. unfold cif_add_cif_item, add_cif_item. cbn [py_list is_plain_list].
  destruct (add_item name _ false b) as [b1 [[]|e]] eqn:E; [|discriminate]. intros H. injection H as <-.
  exact (add_item_read _ _ _ _ name E eq_refl).
Qed.
(** Several columns *)
Lemma add_pairs_reads kvs : forall b b', NoDup (map lower (map fst kvs)) -> WF b ->
  add_pairs (fun k v => add_item k v false) kvs b = (b', Ret tt) ->
  WF b' /\ (forall k v, In (k, v) kvs -> get_item k b' = Ret v)
  /\ (forall k, ~ In (lower k) (map lower (map fst kvs)) -> get_item k b' = get_item k b).
Proof.
  induction kvs as [|[k v] r IH]; intros b b' N W H; cbn [add_pairs] in H.
  - injection H as <-. split; [exact W|]. split; [intros k v []|reflexivity].
  - cbn [map fst] in N. inversion N as [|? ? NI N2]; subst. pose proof (add_item_wf k v false b W) as W1.
    destruct (add_item k v false b) as [b1 [[]|e]] eqn:E; [|discriminate]. cbn [fst] in W1.
    destruct (IH b1 b' N2 W1 H) as (A & B & C). split; [exact A|]. split.
    + intros k2 v2 [X|X]; [|apply B, X]. injection X as <- <-. rewrite C by exact NI. exact (add_item_read _ _ _ _ k E eq_refl).
    + intros k2 X. cbn [map fst In] in X. rewrite C by tauto. apply get_item_data.
      pose proof (add_item_frame k v false b (lower k2)) as F. rewrite E in F. cbn [fst] in F. apply F. intros Q. apply X. left. congruence.
Qed.
Lemma py_lists_plain cols : (forall c, In c cols -> is_plain_list c = true) -> py_lists cols = Ret cols.
Proof.
  induction cols as [|c r IH]; intros H; [reflexivity|]. cbn [py_lists].
  assert (py_list c = Ret c) as -> by (pose proof (H c (or_introl eq_refl)) as P; destruct c; try discriminate P; reflexivity).
  cbn [obind]. rewrite IH; [reflexivity|]. intros x I. apply H. right. exact I.
Qed.
Lemma In_combine_nth {A B} (l : list A) : forall (m : list B), length l = length m -> forall P : A -> B -> Prop,
  (forall a b, In (a, b) (combine l m) -> P a b) -> Forall2 P l m.
Proof.
  induction l as [|a l IH]; intros [|b m] L P H; try discriminate L; constructor.
  - apply H. left. reflexivity.
  - apply IH; [injection L as L; exact L|]. intros x y I. apply H. right. exact I.
Qed.
Lemma get_items_forall names : forall cols b, Forall2 (fun n c => get_item n b = Ret c) names cols -> get_items names b = Ret cols.
Proof.
  intros cols b F. induction F as [|n c names cols H F IH]; [reflexivity|]. cbn [get_items]. rewrite H. cbn [obind]. rewrite IH. reflexivity.
Qed.
Lemma map_fst_combine {A B} (l : list A) : forall (m : list B), length l = length m -> map fst (combine l m) = l.
Proof. induction l as [|a l IH]; intros [|b m] L; try discriminate L; [reflexivity|]. cbn [combine map fst]. f_equal. apply IH. injection L as L. exact L. Qed.
Lemma cif_columns names cols b b' : WF b -> distinct_names names -> length names = length cols ->
  (forall c, In c cols -> is_plain_list c = true) -> cif_add_loop names cols b = (b', Ret tt) ->
  Forall2 (fun n c => get_item n b' = Ret c) names cols /\ (forall n, In n names -> get_loop_names n b' = Ret (map lower names)).
Proof.
  intros W D L P. unfold cif_add_loop. rewrite (py_lists_plain cols P).
  destruct (add_pairs _ (combine names cols) b) as [b1 [[]|e]] eqn:E; [|discriminate]. intros H.
  destruct (add_pairs_reads (combine names cols) b b1) as (W1 & R & _); [rewrite map_fst_combine by exact L; exact D|exact W|exact E|].
  assert (F : Forall2 (fun n c => get_item n b1 = Ret c) names cols) by (apply In_combine_nth; [exact L|exact R]).
  destruct (create_loop_effect names (-1) b1 b' W1 D H) as (no & LC). split; [|intros n I; exact (lc_new _ _ _ _ _ LC n I)].
  pose proof (create_loop_data names (-1) true b1) as K. rewrite H in K. cbn [fst] in K.
  assert (K2 : b_data b' = b_data b1).
  { rewrite K. unfold loop_length_check. rewrite (get_items_forall _ _ _ F).
    assert (filter is_plain_list cols = cols) as ->.
    { clear - P. induction cols as [|c r IH]; [reflexivity|]. cbn [filter]. rewrite (P c (or_introl eq_refl)). f_equal. apply IH. intros x I. apply P. right. exact I. }
    rewrite L, Nat.eqb_refl. destruct (all_same_len cols); reflexivity. }
  clear - F K2. induction F as [|n c names cols X F IH]; constructor; [|exact IH]. rewrite <- X. apply get_item_data. rewrite K2. reflexivity.
Qed.

(** ** The constructor *)
Lemma all_passed ks t loops : Forall (fun l => l <> []) loops ->
  (exists rep, run_data_checks ks t loops = Ret (true, rep)) <-> (forall c, In c (calls ks t loops) -> passed (snd c)).
Proof.
  intros Hl. split.
  - intros (rep & H) c I. destruct (run_ok _ _ _ _ _ H) as (T & V & _). unfold returned in T. rewrite Forall_forall in T.
    destruct (T c I) as (r & E). exists r. split; [assumption|]. intros (v & l & ->).
    apply (proj1 V eq_refl c I). unfold fails. rewrite E. eauto.
  - intros H. destruct (fun R => run_total ks t loops R Hl) as (valid & rep & E).
    { apply Forall_forall. intros c I. destruct (H c I) as (r & E & _). eauto. }
    exists rep. destruct (run_ok _ _ _ _ _ E) as (_ & V & _). rewrite E. f_equal. f_equal. apply V.
    intros c I (v & l & X). destruct (H c I) as (r & Y & N). apply N. exists v, l. congruence.
Qed.
Lemma calls_passed ks t loops : (forall c, In c (calls ks t loops) -> passed (snd c)) <->
  (forall k v, In (k, v) t -> (forall n f, In (n, f) (k_item ks) -> passed (f k v)) /\ (forall n f, In (n, f) (k_global ks) -> passed (f k v t)))
  /\ (forall cols, In cols loops -> forall n f, In (n, f) (k_loop ks) -> passed (f cols)) /\ (forall n f, In (n, f) (k_block ks) -> passed (f t)).
Proof.
  unfold calls. split.
  - intros H. split; [|split].
    + intros k v I. split; intros n f F.
      * apply (H (Some k, n, f k v)). apply in_or_app; left. apply in_flat_map. exists (k, v). split; [assumption|].
        apply in_or_app; left. apply in_map_iff. exists (n, f). now split.
      * apply (H (Some k, n, f k v t)). apply in_or_app; left. apply in_flat_map. exists (k, v). split; [assumption|].
        apply in_or_app; right. apply in_map_iff. exists (n, f). now split.
    + intros cols I n f F. apply (H (hd_error cols, n, f cols)). apply in_or_app; right. apply in_or_app; left.
      apply in_flat_map. exists cols. split; [assumption|]. apply in_map_iff. exists (n, f). now split.
    + intros n f F. apply (H (Some (u "whole_block"), n, f t)). apply in_or_app; right. apply in_or_app; right.
      apply in_map_iff. exists (n, f). now split.
  - intros (A & B & C) c I. apply in_app_or in I as [I|I]; [|apply in_app_or in I as [I|I]].
    + apply in_flat_map in I as ((k, v) & I & J). cbn [fst snd] in J. destruct (A k v I) as (A1 & A2).
      apply in_app_or in J as [J|J]; apply in_map_iff in J as ((n, f) & <- & F); cbn [fst snd]; eauto.
    + apply in_flat_map in I as (cols & I & J). apply in_map_iff in J as ((n, f) & <- & F). cbn [fst snd]. eauto.
    + apply in_map_iff in I as ((n, f) & <- & F). cbn [fst snd]. eauto.
Qed.
Lemma valid_init_exact d b b' : Forall (fun kl => snd kl <> []) (b_loops b) ->
  (valid_init d b = Ret b' <-> b' = b /\ block_ok d b).
Proof.
  intros Hl. assert (Hl' : Forall (fun l => l <> []) (map snd (b_loops b))).
  { apply Forall_forall. intros l I. apply in_map_iff in I as (kl & <- & I). rewrite Forall_forall in Hl. auto. }
  assert (X : forall t, (forall c, In c (calls (as_checks d) t (map snd (b_loops b))) -> passed (snd c)) <->
    (forall k v, In (k, v) t -> (forall n f, In (n, f) (v_item d) -> passed (f k v)) /\ (forall n f, In (n, f) (v_global d) -> passed (f k v t [])))
    /\ (forall k cols, In (k, cols) (b_loops b) -> forall n f, In (n, f) (v_loop d) -> passed (f cols)) /\ (forall n f, In (n, f) (v_block d) -> passed (f t))).
  { intros t. rewrite calls_passed. unfold as_checks. cbn [k_item k_global k_loop k_block]. split; intros (A & B & C); (split; [|split; [|exact C]]).
    - intros k v I. destruct (A k v I) as (A1 & A2). split; [exact A1|]. intros n f F.
      apply (A2 n (fun n v t => f n v t [])). apply in_map_iff. exists (n, f). now split.
    - intros k cols I. apply B. apply in_map_iff. exists (k, cols). now split.
    - intros k v I. destruct (A k v I) as (A1 & A2). split; [exact A1|]. intros n f F.
      apply in_map_iff in F as ((m, g) & [= <- <-] & F). cbn [fst snd]. eauto.
    - intros cols I. apply in_map_iff in I as ((k, c) & <- & I). cbn [snd]. eauto. }
  unfold valid_init, block_checks, block_ok. split.
  - intros H. apply obind_ret in H as ((valid, rep) & H & E). apply obind_ret in H as (t & V & R). cbn [fst] in E.
    destruct valid; [|discriminate]. injection E as <-. split; [reflexivity|]. exists t. split; [now apply view_spec|].
    apply X. apply (proj1 (all_passed _ _ _ Hl')). eauto.
  - intros (-> & t & V & H). apply view_spec in V. rewrite V. cbn [obind]. pose proof (proj2 (X t) H) as H2.
    apply (all_passed _ _ _ Hl') in H2 as (rep & ->). reflexivity.
Qed.
