(** Lemmas about StarBlockModel.v: exact effect of CreateLoop, RemoveItem,
    AddLoopName and ChangeItemOrder; acceptance of names and values. *)
From Coq Require Import String Ascii List NArith ZArith Bool Lia Permutation.
From Verif Require Import PyBase PyFacts StarBlockModel StarBlockSpec StarBlockProofs StarBlockProofs2
  StarBlockProofs3.
Import ListNotations.

(* ---------- assignments that must succeed ---------- *)

Lemma set_item_succeeds k v b :
  check_data_name (b_max b) (b_uni b) k = Ret tt ->
  acceptable_value (b_uni b) v -> (has_key k b = true -> b_over b = true) ->
  exists b', set_item k v b = (b', Ret tt).
Proof.
  intros C ((e & R) & CV) O. unfold set_item.
  destruct (check_data_name_us _ _ _ C) as (r & E). replace (str_eqb k (u "saves")) with false by (rewrite E; reflexivity).
  unfold add_item. rewrite C.
  replace (has_key k b && negb (b_over b)) with false.
  2:{ destruct (has_key k b); [rewrite O by reflexivity|]; reflexivity. }
  rewrite R, CV. destruct (check_stringiness v); eauto.
Qed.

Lemma add_item_settings k v pre b :
  b_max (fst (add_item k v pre b)) = b_max b /\ b_uni (fst (add_item k v pre b)) = b_uni b.
Proof.
  unfold add_item. destruct (if pre then _ else _) as [[]|]; [|auto].
  destruct (_ && _); [auto|]. destruct pre; [auto|].
  destruct (regularise v) as [[reg emp]|]; [|auto].
  destruct (check_item_value _ reg) as [[]|]; [|auto].
  destruct (check_stringiness reg); auto.
Qed.

Lemma add_item_current k v b : settings_current b -> settings_current (fst (add_item k v false b)).
Proof.
  intros S. destruct (add_item k v false b) as [b' [[]|e]] eqn:A.
  2:{ apply add_item_err in A. subst. assumption. }
  cbn. pose proof (add_item_settings k v false b) as [M U]. rewrite A in M, U. cbn in M, U.
  apply add_item_ok in A as (e & C & R & CV & O & ->).
  intros k2 e2 D. rewrite M, U. rewrite store_dget in D.
  destruct (str_eqb_spec k2 (lower k)) as [->|N].
  - split; [now rewrite check_data_name_lower|].
    exists v. injection D as <-. rewrite <- surjective_pairing. split.
    + now apply entry_val_add.
    + split; eauto.
  - exact (S k2 e2 D).
Qed.

Lemma set_item_current k v b : settings_current b -> settings_current (fst (set_item k v b)).
Proof. intros S. unfold set_item. destruct (str_eqb _ _); [assumption|]. now apply add_item_current. Qed.

Lemma update_items_current kvs : forall b, settings_current b -> settings_current (fst (update_items kvs b)).
Proof.
  induction kvs as [|[k v] r IH]; intros b S; cbn [update_items]; [assumption|].
  pose proof (add_item_current k v b S) as S1.
  destruct (add_item k v false b) as [b' [|]]; cbn in *; auto.
Qed.

Lemma listify_current names : forall b, settings_current b -> settings_current (fst (listify_items names b)).
Proof.
  induction names as [|n r IH]; intros b S; cbn [listify_items]; [assumption|].
  destruct (get_item n b) as [v|]; [|assumption].
  pose proof (set_item_current n (VList [v]) b S) as S1.
  destruct (set_item n (VList [v]) b) as [b' [|]]; cbn in *; auto.
Qed.

Lemma current_same b b' : b_data b' = b_data b -> b_max b' = b_max b -> b_uni b' = b_uni b ->
  settings_current b -> settings_current b'.
Proof. unfold settings_current. intros -> -> ->. auto. Qed.

Lemma length_check_current names b : settings_current b -> settings_current (fst (loop_length_check names b)).
Proof.
  intros S. unfold loop_length_check. destruct (get_items names b); [|assumption].
  destruct (Nat.eqb _ _); [destruct (all_same_len _); assumption|].
  destruct (negb _); [assumption|]. now apply listify_current.
Qed.

Lemma drop_empty_set ks : forall b, b_max (fst (drop_empty ks b)) = b_max b /\ b_uni (fst (drop_empty ks b)) = b_uni b.
Proof.
  induction ks as [|k r IH]; intros b; cbn; [auto|].
  destruct (mem _ _ _); [|auto].
  match goal with |- context [drop_empty r ?x] => destruct (IH x) as [-> ->] end. auto.
Qed.

Lemma create_loop_set names order lc b :
  b_max (fst (create_loop names order lc b)) = b_max (fst (if lc then loop_length_check names b else (b, Ret tt)))
  /\ b_uni (fst (create_loop names order lc b)) = b_uni (fst (if lc then loop_length_check names b else (b, Ret tt))).
Proof.
  unfold create_loop. destruct (if lc then _ else _) as [b1 [[]|e]]; [|auto].
  cbv zeta.
  match goal with |- context [drop_empty ?ks ?b2] =>
    pose proof (drop_empty_set ks b2) as D; destruct (drop_empty ks b2) as [b3 [[]|]] end;
  cbn in *; assumption.
Qed.

Lemma create_loop_current names order b : settings_current b ->
  settings_current (fst (create_loop names order true b)).
Proof.
  intros S. destruct (create_loop_set names order true b) as [M U].
  eapply current_same; [apply create_loop_data|exact M|exact U|]. now apply length_check_current.
Qed.

Lemma add_loop_name_set o n b : b_max (fst (add_loop_name o n b)) = b_max b /\ b_uni (fst (add_loop_name o n b)) = b_uni b.
Proof.
  unfold add_loop_name. destruct (find_loop o b); [|auto].
  destruct (mem _ _ _); [auto|].
  destruct (obind _ _); [|auto]. destruct (obind _ _); [|auto].
  destruct (negb _); auto.
Qed.
Lemma add_loop_names_current d ns : forall b, settings_current b -> settings_current (fst (add_loop_names d ns b)).
Proof.
  induction ns as [|n r IH]; intros b S; cbn [add_loop_names]; [assumption|].
  destruct (add_loop_name_set d n b) as [M U]. pose proof (add_loop_name_data d n b) as D.
  pose proof (current_same _ _ D M U S) as S1.
  destruct (add_loop_name d n b) as [b' [|]]; cbn in *; auto.
Qed.

Lemma run_op_current o b : WF b -> keeps_settings o -> settings_current b -> settings_current (fst (run_op o b)).
Proof.
  intros W K S. destruct o; cbn [run_op fst] in *.
  - now apply set_item_current.
  - intros k e. rewrite remove_item_data.
    intros D. assert (M : b_max (fst (remove_item key b)) = b_max b /\ b_uni (fst (remove_item key b)) = b_uni b).
    { unfold remove_item. destruct (has_key _ b); [|auto]. destruct (find_loop key b).
      + destruct (remove1 _ _ _); [destruct (mem _ _ _)|]; auto.
      + destruct (mem _ _ _); auto. }
    destruct M as [-> ->]. destruct (str_eqb_spec k (lower key)) as [->|N].
    + rewrite dget_ddel_eq in D by (auto using str_eqb_spec; apply (wf_keys b W)). discriminate.
    + rewrite dget_ddel_neq in D by (auto using str_eqb_spec). eauto.
  - now apply create_loop_current.
  - destruct (add_loop_name_set oldname newname b) as [M U].
    exact (current_same _ _ (add_loop_name_data oldname newname b) M U S).
  - unfold add_to_loop. pose proof (update_items_current kvs b S) as S1.
    destruct (update_items kvs b) as [b' [|]]; cbn in *; [|assumption]. now apply add_loop_names_current.
  - unfold add_loop_item. pose proof (update_items_current (combine names vals) b S) as S1.
    destruct (update_items (combine names vals) b) as [b' [|]]; cbn [fst] in *; [|assumption].
    now apply create_loop_current.
  - unfold change_item_order. destruct it.
    + destruct (find_loop n b); [assumption|]. destruct (mem _ _ _); assumption.
    + destruct (b_loops b); [|assumption]. destruct (mem _ _ _); assumption.
  - assumption.
  - contradiction.
  - contradiction.
  - intros k e D. discriminate.
Qed.

Lemma run_ops_current os : forall b, WF b -> Forall admissible os -> Forall keeps_settings os ->
  settings_current b -> settings_current (run_ops os b).
Proof.
  induction os as [|o os IH]; intros b W A K S; cbn; [assumption|].
  inversion A; subst. inversion K; subst.
  apply IH; auto; [now apply run_op_wf|now apply run_op_current].
Qed.

(* ---------- the length check ---------- *)

Lemma get_items_all names b vs : get_items names b = Ret vs <->
  Forall2 (fun n v => get_item n b = Ret v) names vs.
Proof.
  revert vs. induction names as [|n r IH]; intros vs; cbn.
  - split; [intros [= <-]; constructor|inversion 1; reflexivity].
  - destruct (get_item n b) as [v|e] eqn:G; cbn.
    + destruct (get_items r b) as [ws|e] eqn:GR; cbn.
      * split.
        -- intros [= <-]. constructor; [assumption|]. now apply IH.
        -- inversion 1 as [|? v' ? ws' G' F]; subst. apply IH in F. congruence.
      * split; [discriminate|]. inversion 1 as [|? v' ? ws' G' F]; subst. apply IH in F. discriminate.
    + split; [discriminate|]. inversion 1; subst. congruence.
Qed.

Lemma get_items_total names b : (forall n, In n names -> exists v, get_item n b = Ret v) ->
  exists vs, get_items names b = Ret vs.
Proof.
  induction names as [|n r IH]; intros H; cbn; [eauto|].
  destruct (H n (or_introl eq_refl)) as (v & ->). cbn.
  destruct IH as (vs & ->); [intros; apply H; now right|]. cbn. eauto.
Qed.

Lemma filter_length_all {A} (f : A -> bool) l :
  length (filter f l) = length l <-> forall x, In x l -> f x = true.
Proof.
  induction l as [|a l IH]; cbn; [intuition|].
  assert (L : (length (filter f l) <= length l)%nat) by (clear; induction l as [|a l IH]; cbn; [lia|destruct (f a); cbn; lia]).
  destruct (f a) eqn:E; cbn.
  - split.
    + intros H x [<-|I]; [assumption|]. apply IH; [lia|assumption].
    + intros H. f_equal. apply IH. auto.
  - split; [lia|]. intros H. rewrite H in E; [discriminate|auto].
Qed.

Lemma filter_length_none {A} (f : A -> bool) l :
  length (filter f l) = 0%nat <-> forall x, In x l -> f x = false.
Proof.
  induction l as [|a l IH]; cbn; [intuition|].
  destruct (f a) eqn:E; cbn.
  - split; [discriminate|]. intros H. rewrite H in E; [discriminate|auto].
  - rewrite IH. split; [intros H x [<-|I]; auto|auto].
Qed.

Lemma Forall2_In_l {A B} (P : A -> B -> Prop) l r x : Forall2 P l r -> In x l -> exists y, In y r /\ P x y.
Proof.
  induction 1 as [|a c l r H F IH]; [contradiction|]. intros [<-|I]; [exists c; cbn; auto|].
  destruct (IH I) as (y & J & K). exists y; cbn; auto.
Qed.
Lemma Forall2_In_r {A B} (P : A -> B -> Prop) l r y : Forall2 P l r -> In y r -> exists x, In x l /\ P x y.
Proof.
  induction 1 as [|a c l r H F IH]; [contradiction|]. intros [<-|I]; [exists a; cbn; auto|].
  destruct (IH I) as (x & J & K). exists x; cbn; auto.
Qed.

Lemma Forall2_len {A B} (P : A -> B -> Prop) l r : Forall2 P l r -> length l = length r.
Proof. induction 1; cbn; congruence. Qed.

Lemma all_same_len_iff vs : all_same_len vs = true <->
  exists n, forall v, In v vs -> list_len v = n.
Proof.
  destruct vs as [|v r]; cbn.
  - split; [exists 0%nat; contradiction|reflexivity].
  - rewrite forallb_forall. split.
    + intros H. exists (list_len v). intros w [<-|I]; [reflexivity|].
      apply Nat.eqb_eq. auto.
    + intros (n & H) w I. apply Nat.eqb_eq. rewrite !H; auto.
Qed.

(** Outcome of the length check before any conversion. *)
Inductive check_case (names : list str) (b : block) : Prop :=
| cc_missing e : loop_length_check names b = (b, Raise e) ->
    (exists n, In n names /\ forall v, get_item n b <> Ret v) -> check_case names b
| cc_columns : loop_length_check names b = (b, Ret tt) ->
    same_length_columns b names -> check_case names b
| cc_bad : loop_length_check names b = (b, Raise ValueErr) ->
    ~ loopable b names -> check_case names b
| cc_single : loop_length_check names b = listify_items names b ->
    names <> [] -> all_single b names -> ~ same_length_columns b names -> check_case names b.

Lemma plain_list_dec v : is_plain_list v = true <-> exists l, v = VList l.
Proof. destruct v; cbn; split; try discriminate; try (intros (l0 & ?); discriminate); eauto. Qed.

Lemma get_items_missing names b e : get_items names b = Raise e ->
  exists n, In n names /\ forall v, get_item n b <> Ret v.
Proof.
  induction names as [|n r IH]; cbn; [discriminate|].
  destruct (get_item n b) as [v|e'] eqn:G; cbn.
  - destruct (get_items r b) as [ws|e'] eqn:GR; cbn; [discriminate|].
    intros [= ->]. destruct (IH eq_refl) as (m & I & J). exists m; auto.
  - intros _. exists n. split; [auto|congruence].
Qed.

Lemma check_cases names b : check_case names b.
Proof.
  destruct (get_items names b) as [vs|e] eqn:G.
  2:{ apply (cc_missing _ _ e).
      - unfold loop_length_check. now rewrite G.
      - eapply get_items_missing; eauto. }
  pose proof (proj1 (get_items_all names b vs) G) as F.
  assert (LEN : length names = length vs) by (eapply Forall2_len; eauto).
  assert (L : loop_length_check names b =
     let listed := filter is_plain_list vs in
      if Nat.eqb (length listed) (length names) then
        if all_same_len vs then (b, Ret tt) else (b, Raise ValueErr)
      else if negb (Nat.eqb (length listed) 0) then (b, Raise ValueErr)
      else listify_items names b) by (unfold loop_length_check; now rewrite G).
  cbv zeta in L.
  destruct (Nat.eqb_spec (length (filter is_plain_list vs)) (length names)) as [E|NE].
  - rewrite LEN in E. pose proof (proj1 (filter_length_all _ _) E) as AL.
    destruct (all_same_len vs) eqn:SL.
    + apply cc_columns; [assumption|].
      apply all_same_len_iff in SL as (n & SL). exists n. intros x I.
      destruct (Forall2_In_l _ _ _ _ F I) as (v & J & K).
      pose proof (AL v J) as P. apply plain_list_dec in P as (l & ->).
      exists l. split; [assumption|]. apply (SL _ J).
    + apply cc_bad; [assumption|]. intros [(n & H)|H].
      * assert (all_same_len vs = true); [|congruence].
        apply all_same_len_iff. exists n. intros v J.
        destruct (Forall2_In_r _ _ _ _ F J) as (x & I & K).
        destruct (H x I) as (l & K2 & K3). rewrite K in K2. injection K2 as ->. exact K3.
      * destruct vs as [|v vs']; [discriminate|].
        destruct (Forall2_In_r _ _ _ _ F (or_introl eq_refl)) as (x & I & K).
        destruct (H x I) as (w & K2 & K3). rewrite K in K2. injection K2 as ->.
        rewrite AL in K3 by (left; reflexivity). discriminate.
  - destruct (Nat.eqb_spec (length (filter is_plain_list vs)) 0) as [Z|NZ]; cbn [negb] in L.
    + apply cc_single; auto.
      * intros ->. inversion F; subst. cbn in NE. congruence.
      * intros x I. destruct (Forall2_In_l _ _ _ _ F I) as (v & J & K).
        exists v. split; [assumption|]. eapply filter_length_none; eauto.
      * intros (n & H). apply NE. rewrite LEN. apply filter_length_all. intros v J.
        destruct (Forall2_In_r _ _ _ _ F J) as (x & I & K).
        destruct (H x I) as (l & K2 & K3). rewrite K in K2. injection K2 as ->. reflexivity.
    + apply cc_bad; [assumption|]. intros [(n & H)|H].
      * apply NE. rewrite LEN. apply filter_length_all. intros v J.
        destruct (Forall2_In_r _ _ _ _ F J) as (x & I & K).
        destruct (H x I) as (l & K2 & K3). rewrite K in K2. injection K2 as ->. reflexivity.
      * apply NZ. apply filter_length_none. intros v J.
        destruct (Forall2_In_r _ _ _ _ F J) as (x & I & K).
        destruct (H x I) as (w & K2 & K3). rewrite K in K2. injection K2 as ->. assumption.
Qed.

(* ---------- single values become one-row columns ---------- *)

Lemma acceptable_wrap un v : is_plain_list v = false -> acceptable_value un v -> acceptable_value un (VList [v]).
Proof.
  intros P ((e & R) & C). split.
  - exists (VList [e]). rewrite regularise_VList. cbn [reg_list]. rewrite R. reflexivity.
  - unfold check_item_value in *. cbn [forallb]. rewrite andb_true_r.
    destruct v; try discriminate; cbn [check_one] in *; auto.
Qed.

Lemma store_existing k s v b : has_key k b = true ->
  b_order (store_item k s v b) = b_order b /\ b_loops (store_item k s v b) = b_loops b.
Proof. intros H. unfold store_item. cbn [b_order b_loops]. rewrite has_key_lower, H. auto. Qed.

Lemma set_item_existing k v b b' : has_key k b = true -> set_item k v b = (b', Ret tt) ->
  b_order b' = b_order b /\ b_loops b' = b_loops b /\ b_over b' = b_over b.
Proof.
  intros H S. apply set_item_ok in S. apply add_item_ok in S as (e & _ & _ & _ & _ & ->).
  destruct (store_existing k (fst (if check_stringiness v then (v, e) else (e, v)))
             (snd (if check_stringiness v then (v, e) else (e, v))) b H). auto.
Qed.

Lemma get_item_key k b v : get_item k b = Ret v -> has_key k b = true.
Proof.
  rewrite get_full_entry. destruct (str_eqb _ _); [discriminate|].
  unfold has_key, dmem. now destruct (dget str_eqb (lower k) (b_data b)).
Qed.

Lemma current_value b k v : settings_current b -> get_item k b = Ret v ->
  check_data_name (b_max b) (b_uni b) k = Ret tt /\ acceptable_value (b_uni b) v.
Proof.
  intros S G. rewrite get_full_entry in G. destruct (str_eqb _ _); [discriminate|].
  destruct (dget str_eqb (lower k) (b_data b)) as [e|] eqn:D; [|discriminate].
  destruct (S _ _ D) as (C & v' & E & A). rewrite check_data_name_lower in C.
  split; [assumption|]. congruence.
Qed.

Lemma listify_succeeds names : forall b,
  settings_current b -> b_over b = true -> distinct_names names -> all_single b names ->
  exists b', listify_items names b = (b', Ret tt).
Proof.
  induction names as [|n r IH]; intros b S O D A; cbn [listify_items]; [eauto|].
  destruct (A n (or_introl eq_refl)) as (v & G & P). rewrite G.
  destruct (current_value b n v S G) as [C AV].
  destruct (set_item_succeeds n (VList [v]) b C (acceptable_wrap _ _ P AV) (fun _ => O)) as (b1 & E).
  pose proof (set_item_current n (VList [v]) b S) as S1.
  pose proof (set_item_existing n (VList [v]) b b1 (get_item_key _ _ _ G) E) as (_ & _ & O1).
  rewrite E in S1 |- *. cbn in S1. inversion D as [|? ? D1 D2]; subst.
  apply IH; auto; [congruence|].
  intros m I. destruct (A m (or_intror I)) as (w & G2 & P2). exists w. split; [|assumption].
  rewrite <- G2. apply get_item_data.
  pose proof (set_item_frame n (VList [v]) b (lower m)) as F. rewrite E in F. apply F.
  intros X. apply D1. rewrite <- X. now apply in_map.
Qed.

Lemma listify_effect names : forall b b', listify_items names b = (b', Ret tt) ->
  distinct_names names ->
  b_order b' = b_order b /\ b_loops b' = b_loops b /\
  (forall n v, In n names -> get_item n b = Ret v -> get_item n b' = Ret (VList [v])).
Proof.
  induction names as [|n r IH]; intros b b'; cbn [listify_items].
  - intros [= <-] _. repeat split. contradiction.
  - destruct (get_item n b) as [v|] eqn:G; [|discriminate].
    destruct (set_item n (VList [v]) b) as [b1 [[]|]] eqn:E; [|discriminate].
    intros L D. inversion D as [|? ? D1 D2]; subst.
    destruct (IH b1 b' L D2) as (O1 & L1 & V1).
    destruct (set_item_existing _ _ _ _ (get_item_key _ _ _ G) E) as (O2 & L2 & _).
    repeat split; [congruence|congruence|].
    intros m w [<-|I] GM.
    + assert (get_item n b1 = Ret (VList [v])) by (eapply set_item_read; eauto).
      assert (w = v) by congruence. subst w. rewrite <- H. apply get_item_data.
      pose proof (listify_frame r (lower n) b1 D1) as F. rewrite L in F. exact F.
    + apply V1; [assumption|]. rewrite <- GM. apply get_item_data.
      pose proof (set_item_frame n (VList [v]) b (lower m)) as F. rewrite E in F. apply F.
      intros X. apply D1. rewrite <- X. now apply in_map.
Qed.

Lemma listify_locked_fails names b : names <> [] -> b_over b = false -> all_single b names ->
  exists e, listify_items names b = (b, Raise e).
Proof.
  intros N O A. destruct names as [|n r]; [congruence|]. cbn [listify_items].
  destruct (A n (or_introl eq_refl)) as (v & G & P). rewrite G.
  destruct (locked_add n (VList [v]) b O (get_item_key _ _ _ G)) as (e & ->). eauto.
Qed.

(* ---------- C05 ---------- *)

Lemma create_loop_success names order b b1 : WF b -> loop_length_check names b = (b1, Ret tt) ->
  create_loop names order true b = (loop_tables names order b1, Ret tt).
Proof.
  intros W L. apply create_loop_tables; [assumption|].
  pose proof (length_check_wf names b W) as W1. rewrite L in W1. exact W1.
Qed.

Lemma create_loop_fail names order b b1 e : loop_length_check names b = (b1, Raise e) ->
  create_loop names order true b = (b1, Raise e).
Proof. intros L. unfold create_loop. now rewrite L. Qed.

Lemma create_loop_iff names order b :
  WF b -> settings_current b -> b_over b = true -> distinct_names names ->
  (snd (create_loop names order true b) = Ret tt <-> loopable b names).
Proof.
  intros W S O D. destruct (check_cases names b) as [e L (n & I & N)|L C|L N|L NE A NC].
  - rewrite (create_loop_fail _ _ _ _ _ L). cbn. split; [discriminate|].
    intros [(k & H)|H].
    + destruct (H n I) as (l & G & _). now apply N in G.
    + destruct (H n I) as (l & G & _). now apply N in G.
  - rewrite (create_loop_success _ _ _ _ W L). cbn. split; [left; assumption|reflexivity].
  - rewrite (create_loop_fail _ _ _ _ _ L). cbn. split; [discriminate|contradiction].
  - destruct (listify_succeeds names b S O D A) as (b' & E). rewrite E in L.
    rewrite (create_loop_success _ _ _ _ W L). cbn. split; [right; assumption|reflexivity].
Qed.

Lemma create_loop_atomic names order b e :
  WF b -> settings_current b -> distinct_names names ->
  snd (create_loop names order true b) = Raise e -> fst (create_loop names order true b) = b.
Proof.
  intros W S D. destruct (check_cases names b) as [e' L (n & I & N)|L C|L N|L NE A NC].
  - rewrite (create_loop_fail _ _ _ _ _ L). reflexivity.
  - rewrite (create_loop_success _ _ _ _ W L). discriminate.
  - rewrite (create_loop_fail _ _ _ _ _ L). reflexivity.
  - destruct (b_over b) eqn:O.
    + destruct (listify_succeeds names b S O D A) as (b' & E). rewrite E in L.
      rewrite (create_loop_success _ _ _ _ W L). discriminate.
    + destruct (listify_locked_fails names b NE O A) as (e2 & E). rewrite E in L.
      rewrite (create_loop_fail _ _ _ _ _ L). reflexivity.
Qed.

(* ---------- C06 ---------- *)

Lemma length_check_shape names b b1 : distinct_names names -> loop_length_check names b = (b1, Ret tt) ->
  b_order b1 = b_order b /\ b_loops b1 = b_loops b /\
  ((same_length_columns b names /\ b1 = b) \/
   (all_single b names /\ forall n v, In n names -> get_item n b = Ret v -> get_item n b1 = Ret (VList [v]))).
Proof.
  intros D H. destruct (check_cases names b) as [e' L (n & I & N)|L C|L N|L NE A NC];
    rewrite H in L; try discriminate.
  - injection L as ->. auto.
  - symmetry in L. destruct (listify_effect names b b1 L D) as (O & LL & V). auto.
Qed.

Lemma notin_without names cols : filter (notin (map lower names)) cols = without names cols.
Proof. reflexivity. Qed.

Lemma loops_without_In names b k cols : 
  In (k, cols) (loops_without (map lower names) (b_loops b)) <->
  cols <> [] /\ exists cols0, In (k, cols0) (b_loops b) /\ cols = without names cols0.
Proof.
  unfold loops_without. rewrite filter_In, in_map_iff. split.
  - intros (([k0 c0] & E & I) & N). cbn in E. injection E as <- <-. split.
    + unfold is_empty_loop in N. cbn in N. destruct (filter _ c0); [discriminate|discriminate].
    + exists c0. auto.
  - intros (N & c0 & I & ->). split.
    + exists (k, c0). auto.
    + unfold is_empty_loop. cbn [snd]. destruct (without names c0); [congruence|reflexivity].
Qed.

Lemma wf_loop_unique b k1 c1 k2 c2 x : WF b -> In (k1, c1) (b_loops b) -> In (k2, c2) (b_loops b) ->
  In x c1 -> In x c2 -> k1 = k2 /\ c1 = c2.
Proof.
  intros W I1 I2 X1 X2. pose proof (printed_NoDup b W) as P. unfold printed_names in P.
  apply NoDup_app_iff in P as (_ & P & _).
  apply in_split in I1 as (l1 & l2 & E). rewrite E in I2, P. rewrite concat_split in P.
  apply NoDup_app_iff in P as (_ & P1 & P2). apply NoDup_app_iff in P1 as (_ & _ & P3).
  apply in_app_or in I2 as [I2|[I2|I2]].
  - exfalso. apply (P2 x); [|apply in_or_app; auto].
    apply in_concat. exists c2. split; [|assumption]. change c2 with (snd (k2, c2)). now apply in_map.
  - injection I2 as -> ->. auto.
  - exfalso. apply (P3 x); [assumption|].
    apply in_concat. exists c2. split; [|assumption]. change c2 with (snd (k2, c2)). now apply in_map.
Qed.

Lemma wf_get_loop b n k cols : WF b -> In (k, cols) (b_loops b) -> In (lower n) cols ->
  find_loop n b = Some k /\ get_loop_names n b = Ret cols.
Proof.
  intros W I X. assert (F : find_loop n b = Some k).
  { destruct (find_loop n b) as [k'|] eqn:F.
    - destruct (wf_loop_get b n k' W F) as (l1 & c' & l2 & E1 & E2 & E3 & _).
      assert (I' : In (k', c') (b_loops b)) by (rewrite E1; apply in_or_app; right; now left).
      destruct (wf_loop_unique b _ _ _ _ _ W I I' X E3) as [-> _]. reflexivity.
    - apply find_loop_None in F. exfalso. apply F. apply in_concat. exists cols.
      split; [|assumption]. change cols with (snd (k, cols)). now apply in_map. }
  split; [assumption|]. unfold get_loop_names. rewrite F.
  rewrite (dget_In_NoDup _ Z.eqb_spec _ _ _ (wf_nums b W) I). reflexivity.
Qed.

Lemma get_loop_names_In b n cols : WF b -> get_loop_names n b = Ret cols ->
  exists k, In (k, cols) (b_loops b) /\ In (lower n) cols /\ find_loop n b = Some k.
Proof.
  intros W. unfold get_loop_names. destruct (find_loop n b) as [k|] eqn:F; [|discriminate].
  destruct (wf_loop_get b n k W F) as (l1 & c' & l2 & E1 & E2 & E3 & _). rewrite E2. intros [= <-].
  exists k. repeat split; auto. rewrite E1. apply in_or_app; right; now left.
Qed.

Lemma py_insert_app {A} pos (x : A) l :
  exists pre post, l = pre ++ post /\ length pre = clamp_pos (length l) pos /\ py_insert pos x l = pre ++ x :: post.
Proof.
  exists (firstn (clamp_pos (length l) pos) l), (skipn (clamp_pos (length l) pos) l).
  split; [symmetry; apply firstn_skipn|]. split; [|reflexivity].
  apply firstn_length_le. unfold clamp_pos. lia.
Qed.

Lemma keep_ref_still names b o : WF b -> In o (b_order b) ->
  (keep_ref (dkeys (filter is_empty_loop
                (map (fun kl => (fst kl, filter (notin (map lower names)) (snd kl))) (b_loops b)))) o
   && order_not_in (map lower names) o) = still_listed names b o.
Proof.
  intros W I. destruct o as [n|k]; cbn [keep_ref order_not_in still_listed]; [reflexivity|].
  rewrite andb_true_r.
  assert (IK : In k (dkeys (b_loops b))).
  { eapply Permutation_in; [apply (wf_refs b W)|]. now apply order_loops_In. }
  destruct (dget Z.eqb k (b_loops b)) as [c|] eqn:G.
  2:{ apply (dget_None _ Z.eqb_spec) in G. contradiction. }
  pose proof (dget_In _ Z.eqb_spec _ _ _ G) as IC.
  destruct (without names c) as [|x r] eqn:WT.
  - apply negb_false_iff. apply (mem_In _ Z.eqb_spec). apply in_map_iff.
    exists (k, []). split; [reflexivity|]. apply filter_In. split; [|reflexivity].
    apply in_map_iff. exists (k, c). split; [|assumption]. cbn. f_equal. exact WT.
  - apply negb_true_iff. apply (mem_false _ Z.eqb_spec). intros J.
    apply in_map_iff in J as ([k' c'] & E & J). cbn in E. subst k'.
    apply filter_In in J as [J Z]. apply in_map_iff in J as ([k2 c2] & E & J). cbn in E.
    injection E as -> E. pose proof (dget_In_NoDup _ Z.eqb_spec _ _ _ (wf_nums b W) J) as G2.
    assert (c2 = c) by congruence. subst c2. rewrite notin_without, WT in E. subst c'. discriminate.
Qed.

Lemma filter_filter' {A} (f g : A -> bool) l : filter f (filter g l) = filter (fun x => g x && f x) l.
Proof.
  induction l as [|a l IH]; cbn; [reflexivity|]. destruct (g a) eqn:G; cbn; [|assumption].
  destruct (f a); [f_equal|]; assumption.
Qed.
