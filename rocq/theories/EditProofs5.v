From Coq Require Import String Ascii List NArith Bool Lia Arith.
From Verif Require Import PyBase PyFacts StarBlockModel ValidateModel CollectionModel CollectionProofs TreeModel TreeProofs EditModel EditSpec EditProofs EditProofs2 EditProofs3.
Import ListNotations.
Open Scope nat_scope.

Lemma root_ok d : in_order d -> (exists r, within d r None) -> exists r, first_root d = Ret r /\ within d r None /\ In r (map fst (k_blocks d)) /\ lower r = r.
Proof.
  intros O (r0 & i0 & I0). unfold first_root.
  assert (Q : forall r, In r (with_parent None (k_child d)) <-> within d r None).
  { intros r. unfold with_parent, within. rewrite in_map_iff. split.
    - intros ((a, (i, p)) & <- & I). apply filter_In in I as (I & M). cbn [snd pc_parent fst] in *. destruct p; [discriminate|]. eauto.
    - intros (i & I). exists (r, PC i None). split; [reflexivity|]. apply filter_In. now split. }
  destruct (with_parent None (k_child d)) as [|r l] eqn:W.
  - destruct (proj2 (Q r0)); eauto. now exists i0.
  - assert (Wr : within d r None) by (apply Q; now left). exists r. split; [reflexivity|]. split; [exact Wr|].
    assert (I : In r (map fst (k_blocks d))). { apply (io_both d O). destruct Wr as (i & I). apply (in_map fst) in I. exact I. }
    split; [exact I|now apply O].
Qed.
Lemma dset_in {V} k (v : V) l x w : In (x, w) (dset str_eqb k v l) -> x = k /\ w = v \/ In (x, w) l.
Proof.
  induction l as [|(a, b) r IH]; cbn [dset]; [intros [[= <- <-]|[]]; auto|].
  destruct (str_eqb_spec k a) as [->|Na]; intros [[= <- <-]|I]; auto; [right; now right|right; now left|]. destruct (IH I); auto. right. now right.
Qed.
Lemma new_step name f root d : in_order d -> length name <= 75 -> fix_name f name = name -> ~ In (lower name) (map fst (k_blocks d)) ->
  In root (map fst (k_blocks d)) -> lower root = root -> forall d', d' = set_ids (dset str_eqb (lower name) (lower name) (k_ids d)) (k_add (lower name) name root d) ->
  k_new name f root d = (k_add (lower name) name root d, Ret (lower name)) /\ in_order d'
    /\ (forall x, blk d' x = if str_eqb x (lower name) then Some ([], true) else blk d x)
    /\ (forall x, chd d' x = if str_eqb x (lower name) then Some (PC name (Some root)) else chd d x)
    /\ (forall x, isid d' x = if str_eqb x (lower name) then true else isid d x).
Proof.
  intros O Hl Hf Hn Hr Lr d' ->. split.
  - unfold k_new. rewrite (proj2 (Nat.ltb_ge 75 (length name)) Hl). rewrite Hf. apply dmem_not in Hn. now rewrite Hn.
  - assert (M : dmem str_eqb (lower root) (k_blocks (set_blocks (dset str_eqb (lower name) ([], true) (k_blocks d)) d)) = true).
    { apply dmem_iff. cbn [k_blocks set_blocks]. apply keys_dset_in. left. now rewrite Lr. }
    unfold k_add. rewrite M, Lr. cbn [set_blocks set_kchild set_ids k_blocks k_child k_ids k_objs]. split; [|split; [|split]].
    + constructor; cbn [k_blocks k_child k_ids]; try (apply keys_dset_nodup, O).
      * intros k. split; intros I; apply keys_dset_in; apply keys_dset_in in I; destruct I as [I|I]; auto; left; now apply (io_both d O).
      * intros k I. apply keys_dset_in in I as [I| ->]; [now apply O|]. apply lower_idem.
      * intros k b I. apply dset_in in I as [(-> & ->)|I].
        -- split; [apply lower_idem|]. apply keys_dset_in. now right.
        -- destruct (io_own d O k b I) as (A & B). split; [exact A|]. apply keys_dset_in. now left.
    + intros x. unfold blk. cbn [k_blocks]. destruct (str_eqb_spec x (lower name)) as [->|N]; [now apply dget_dset_eq, str_eqb_spec|apply dget_dset_neq; [apply str_eqb_spec|exact N]].
    + intros x. unfold chd. cbn [k_child]. destruct (str_eqb_spec x (lower name)) as [->|N]; [now apply dget_dset_eq, str_eqb_spec|apply dget_dset_neq; [apply str_eqb_spec|exact N]].
    + intros x. unfold isid. cbn [k_ids]. destruct (str_eqb_spec x (lower name)) as [->|N].
      * apply dmem_iff, keys_dset_in. now right.
      * apply Bool.eq_iff_eq_true. rewrite !dmem_iff. split; intros I; [apply keys_dset_in in I as [I|I]; [exact I|contradiction]|apply keys_dset_in; now left].
Qed.
Definition puts (l : list (str * value)) (t : table) : table := fold_left (fun t a => dset str_eqb (lower (fst a)) (snd a) t) l t.
Lemma set_all_step key l : forall d t, in_order d -> blk d (lower key) = Some (t, true) ->
  exists d', set_all key l d = (d', Ret tt) /\ in_order d'
    /\ (forall x, blk d' x = if str_eqb x (lower key) then Some (puts l t, true) else blk d x)
    /\ (forall x, chd d' x = chd d x) /\ (forall x, isid d' x = isid d x) /\ k_ids d' = k_ids d.
Proof.
  induction l as [|(a, v) r IH]; intros d t O E; cbn [set_all].
  - exists d. split; [reflexivity|]. split; [exact O|]. split; [|easy]. intros x. destruct (str_eqb_spec x (lower key)) as [->|]; [exact E|reflexivity].
  - destruct (set_step key a v d t true O E (or_intror eq_refl)) as (d1 & E1 & O1 & B1 & C1 & D1 & F1). rewrite E1. cbn [then_].
    destruct (IH d1 (dset str_eqb (lower a) v t) O1) as (d2 & E2 & O2 & B2 & C2 & D2 & F2). { now rewrite B1, eqb_same. }
    exists d2. split; [exact E2|]. split; [exact O2|]. split; [|split; [|split]].
    + intros x. rewrite B2, B1. destruct (str_eqb x (lower key)); reflexivity.
    + intros x. now rewrite C2. + intros x. now rewrite D2. + now rewrite F2.
Qed.
Lemma heads_ok d h : in_order d -> (forall k s, says d k s -> (tget (u "_definition.class") s = Some (VStr (u "Head")) <-> k = h)) -> isid d h = true -> exists l, heads d = Ret (h :: l).
Proof.
  intros O H I. unfold heads.
  rewrite (filterM_all _ (fun a => str_eqb a h)).
  - assert (M : In h (filter (fun a => str_eqb a h) (k_keys d))). { apply filter_In. split; [now apply isid_iff|apply eqb_same]. }
    destruct (filter (fun a => str_eqb a h) (k_keys d)) as [|x l] eqn:F; [destruct M|]. exists l.
    assert (X : In x (filter (fun a => str_eqb a h) (k_keys d))) by (rewrite F; now left). apply filter_In in X as (_ & X).
    destruct (str_eqb_spec x h); [now subst|discriminate].
  - intros a Ia. apply isid_iff in Ia. destruct (proj1 (blk_some d O a) (isid_blk d O a Ia)) as ((t, o) & E).
    rewrite (table_ok d O a t o) by (rewrite (isid_low d O a Ia); exact E). cbn [obind]. f_equal.
    assert (S : says d a t) by (apply says_iff; eauto). specialize (H a t S). unfold is_head.
    destruct (str_eqb_spec a h) as [->|N].
    + apply veq_text_spec. now apply H.
    + destruct (veq_text _ _) eqn:V; [|reflexivity]. apply veq_text_spec in V. apply H in V. contradiction.
Qed.
Lemma says_after d d' n t' : in_order d -> in_order d' -> ~ In n (map fst (k_blocks d)) ->
  (forall x, isid d' x = if str_eqb x n then true else isid d x) ->
  (forall x, option_map fst (blk d' x) = if str_eqb x n then Some t' else option_map fst (blk d x)) ->
  forall k s, says d' k s <-> k = n /\ s = t' \/ says d k s.
Proof.
  intros O O' Hn Hi Hb k s. rewrite (says_iff d O), (says_iff d' O'), Hi. specialize (Hb k). destruct (str_eqb_spec k n) as [E0|N]; [subst k|].
  - split.
    + intros (_ & o & E). rewrite E in Hb. injection Hb as <-. left. now split.
    + intros [(_ & ->)|(X & _)]; [|apply isid_blk in X; [contradiction|exact O]]. split; [reflexivity|]. destruct (blk d' n) as [(t, o)|]; [|discriminate]. injection Hb as <-. eauto.
  - split.
    + intros (A & o & E). right. split; [exact A|]. rewrite E in Hb. destruct (blk d k) as [(t0, o0)|]; [|discriminate]. injection Hb as <-. eauto.
    + intros [(X & _)|(A & o & E)]; [contradiction|]. split; [exact A|]. rewrite E in Hb. destruct (blk d' k) as [(t0, o0)|]; [|discriminate]. injection Hb as <-. eauto.
Qed.
Lemma within_after d d' n i r : in_order d -> in_order d' -> ~ In n (map fst (k_blocks d)) ->
  (forall x, chd d' x = if str_eqb x n then Some (PC i r) else chd d x) ->
  forall k p, within d' k p <-> k = n /\ p = r \/ within d k p.
Proof.
  intros O O' Hn Hc k p. rewrite (within_chd d' k p O'), (within_chd d k p O), Hc. destruct (str_eqb_spec k n) as [->|N].
  - split; [intros (e & [= <-] & <-); now left|]. intros [(_ & ->)|(e & E & _)]; [eauto|]. exfalso. apply Hn. apply (chd_some d O). eauto.
  - split; [now right|]. now intros [(X & _)|X].
Qed.
Lemma fix_name_id n : ~ In 32%N n -> ~ In 9%N n -> fix_name true n = n.
Proof.
  unfold fix_name. induction n as [|x r IH]; intros A B; [reflexivity|]. cbn [map]. cbn [In] in A, B. rewrite IH by tauto.
  destruct (N.eqb_spec x 32) as [->|]; [exfalso; auto|]. destruct (N.eqb_spec x 9) as [->|]; [exfalso; auto|]. reflexivity.
Qed.

Lemma add_category_works n parent loop dangler cat d : in_order d -> (exists r, within d r None) -> length n <= 75 -> ~ In 32%N n -> ~ In 9%N n ->
  ~ In (lower n) (map fst (k_blocks d)) -> chosen d parent dangler cat ->
  exists d' t' root, add_category n parent loop dangler d = (d', Ret n) /\ in_order d' /\ locked d'
    /\ changed [(a_object, VStr n); (a_category, cat); (a_def, VStr n); (a_scope, VStr (u "Category"));
                (a_class, VStr (u (if loop then "Loop" else "Set"))); (a_text, VStr (u "No definition provided"))] [] t'
    /\ (forall k s, says d' k s <-> k = lower n /\ s = t' \/ says d k s)
    /\ within d root None /\ (forall k p, within d' k p <-> k = lower n /\ p = Some root \/ within d k p).
Proof.
  intros O Hr Hl H32 H9 Hn Hc. unfold add_category.
  assert (Kn : k_has n d = false). { unfold k_has. apply dmem_not. intros I. apply Hn. apply isid_iff in I. now apply isid_blk. }
  rewrite Kn. destruct (flags_step true d O) as (d1 & E1 & O1 & B1 & C1 & D1 & F1). rewrite E1. cbn [then_].
  destruct (root_ok d1 O1) as (root & Er & Wr & Ir & Lr).
  { destruct Hr as (r & W). exists r. apply within_chd; [exact O1|]. rewrite C1. now apply within_chd in W. }
  rewrite Er. cbn [look].
  assert (Hn1 : ~ In (lower n) (map fst (k_blocks d1))). { rewrite (blk_none d1), B1. apply blk_none in Hn. now rewrite Hn. }
  assert (S1 : forall k s, says d k s -> says d1 k s /\ blk d1 k = Some (s, true)).
  { intros k s S. apply says_iff in S as (I & o & E); [|exact O]. assert (Q : blk d1 k = Some (s, true)) by (rewrite B1, E, I; reflexivity).
    split; [|exact Q]. apply says_iff; [exact O1|]. rewrite D1. eauto. }
  assert (Hsem : exists semantic, (match parent with None => obind (heads d1) (fun l => Ret (match l with h :: _ => h | [] => root end)) | Some p => Ret p end) = Ret semantic
     /\ ((exists p, parent = Some p /\ dangler = true /\ cat = VStr p) \/ exists t, says d (lower semantic) t /\ tget a_object t = Some cat)
     /\ match parent, dangler with Some p, true => cat = VStr p | _, _ => exists t, says d (lower semantic) t /\ tget a_object t = Some cat end).
  { unfold chosen in Hc. destruct parent as [p|].
    - exists p. split; [reflexivity|]. destruct dangler; [split; [left; eauto|exact Hc]|]. split; [right; exact Hc|exact Hc].
    - assert (Hc' : exists h t, (forall k s, says d k s -> (tget (u "_definition.class") s = Some (VStr (u "Head")) <-> k = h)) /\ says d h t /\ tget (u "_name.object_id") t = Some cat) by (destruct dangler; exact Hc).
      destruct Hc' as (h & t & Hh & Sh & Th). destruct (heads_ok d1 h O1) as (l & El).
      + intros k s S. apply Hh. apply says_iff in S as (I & o & E); [|exact O1]. rewrite D1 in I. rewrite B1 in E. apply says_iff; [exact O|]. split; [exact I|].
        destruct (blk d k) as [(t0, o0)|]; [|discriminate]. injection E as <- _. eauto.
      + apply S1 in Sh as (Sh & _). apply says_iff in Sh; [|exact O1]. apply Sh.
      + rewrite El. cbn [obind]. exists h. split; [reflexivity|]. assert (Lh : lower h = h). { apply says_iff in Sh as (I & _); [|exact O]. now apply (isid_low d O). }
        rewrite Lh. split; [right; eauto|]. destruct dangler; eauto. }
  destruct Hsem as (sem & Es & _ & Hsem). rewrite Es. cbn [look].
  destruct (new_step n true root d1 O1 Hl (fix_name_id n H32 H9) Hn1 Ir Lr _ eq_refl) as (E2 & O2 & B2 & C2 & D2).
  rewrite E2. cbn [then_].
  assert (Q2 : k_ids (k_add (lower n) n root d1) = k_ids d1) by (unfold k_add; now destruct (dmem _ _ _)).
  rewrite Q2. set (d2 := set_ids _ (k_add (lower n) n root d1)) in *.
  destruct (set_step n a_object (VStr n) d2 [] true O2) as (d3 & E3 & O3 & B3 & C3 & D3 & F3). { now rewrite B2, eqb_same. } { now right. }
  rewrite E3. cbn [then_].
  assert (Ec : (match parent, dangler with Some p, true => Ret (VStr p) | _, _ => k_item sem a_object d3 end) = Ret cat).
  { assert (X : (exists t, says d (lower sem) t /\ tget a_object t = Some cat) -> k_item sem a_object d3 = Ret cat).
    { intros (t & S & T). pose proof S as S'. apply S1 in S' as (_ & Q). apply (item_ok d3 O3 sem a_object t true cat); [|exact T]. rewrite B3, B2, Q.
      rewrite eqb_diff; [reflexivity|]. intros Y. apply Hn. rewrite <- Y. apply (blk_some d O). apply says_iff in S as (_ & o & E); [|exact O]. eauto. }
    destruct parent as [p|]; [destruct dangler; [congruence|now apply X]|now apply X]. }
  rewrite Ec. cbn [look].
  set (l := [(a_category, cat); (a_def, VStr n); (a_scope, VStr (u "Category")); (a_class, VStr (u (if loop then "Loop" else "Set"))); (a_text, VStr (u "No definition provided"))]).
  destruct (set_all_step n l d3 (dset str_eqb (lower a_object) (VStr n) []) O3) as (d4 & E4 & O4 & B4 & C4 & D4 & F4). { now rewrite B3, eqb_same. }
  rewrite E4. cbn [then_]. destruct (flags_step false d4 O4) as (d5 & E5 & O5 & B5 & C5 & D5 & F5). rewrite E5. cbn [then_].
  set (t' := puts l (dset str_eqb (lower a_object) (VStr n) [])) in *.
  exists d5, t', root. split; [reflexivity|]. split; [exact O5|]. split; [eapply locked_of; [exact O4|exact O5| |]; auto|].
  split; [|split; [|split]].
  - split.
    + intros a v I. unfold t', l, puts. cbn [fold_left fst snd]. rewrite !tget_set.
      destruct I as [[= <- <-]|[[= <- <-]|[[= <- <-]|[[= <- <-]|[[= <- <-]|[[= <- <-]|[]]]]]]]; reflexivity.
    + intros b Nb. unfold t', l, puts. cbn [fold_left fst snd]. rewrite !tget_set.
      cbn [map fst In] in Nb. rewrite !eqb_diff; [reflexivity|..]; intros X; apply Nb; rewrite X; vm_compute; tauto.
  - apply says_after; [exact O|exact O5|exact Hn| |].
    + intros x. rewrite D5, D4, D3, D2, D1. reflexivity.
    + intros x. rewrite B5, B4, B3, B2, B1. destruct (str_eqb x (lower n)); [reflexivity|]. destruct (blk d x) as [(t0, o0)|]; reflexivity.
  - apply within_chd in Wr as (e & E & P); [|exact O1]. rewrite C1 in E. apply within_chd; [exact O|]. eauto.
  - apply (within_after d d5 (lower n) n (Some root) O O5 Hn). intros x. rewrite C5, C4, C3, C2, C1. reflexivity.
Qed.

(** ** The object of an item's name *)
Lemma after_dot_none acc s : ~ In 46%N s -> after_dot acc s = rev acc ++ s.
Proof.
  revert acc. induction s as [|x r IH]; intros acc H; cbn [after_dot]; [now rewrite app_nil_r|].
  destruct (N.eqb_spec x 46) as [->|]; [exfalso; apply H; now left|]. rewrite IH by (intros I; apply H; now right). cbn [rev]. now rewrite <- app_assoc.
Qed.
Lemma after_dot_some pre s : ~ In 46%N s -> forall acc, after_dot acc (pre ++ 46%N :: s) = s.
Proof.
  intros H. induction pre as [|x r IH]; intros acc; cbn [app after_dot].
  - cbn. now rewrite after_dot_none by exact H.
  - destruct (x =? 46)%N; apply IH.
Qed.
Lemma lstrip_spec a s : Forall (eq 95%N) a -> hd_error s <> Some 95%N -> lstrip_us (a ++ s) = s.
Proof.
  induction 1 as [|x r <- _ IH]; cbn [app]; intros H; [|cbn; now apply IH].
  destruct s as [|y s]; [reflexivity|]. cbn [lstrip_us]. destruct (N.eqb_spec y 95) as [->|]; [exfalso; now apply H|reflexivity].
Qed.
Lemma lstrip_all b : Forall (eq 95%N) b -> lstrip_us b = [].
Proof. intros H. rewrite <- (app_nil_r b) at 1. now apply lstrip_spec. Qed.
Lemma object_ok item obj : names_object item obj -> strip_us (after_dot [] item) = obj.
Proof.
  intros (pre & a & b & Hi & Ha & Hb & Hd & H1 & H2).
  assert (N : ~ In 46%N (a ++ obj ++ b)).
  { rewrite !in_app_iff. rewrite Forall_forall in Ha, Hb. intros [I|[I|I]]; [apply Ha in I; discriminate|contradiction|apply Hb in I; discriminate]. }
  assert (E : after_dot [] item = a ++ obj ++ b). { destruct Hi as [->| ->]; [now apply after_dot_none|now apply after_dot_some]. }
  rewrite E. unfold strip_us. destruct obj as [|x r].
  - cbn [app]. rewrite (lstrip_all (a ++ b)); [reflexivity|]. apply Forall_app. now split.
  - rewrite (lstrip_spec a ((x :: r) ++ b) Ha) by exact H1. rewrite rev_app_distr. rewrite lstrip_spec; [apply rev_involutive| |exact H2].
    apply Forall_forall. intros y I. apply in_rev in I. rewrite Forall_forall in Hb. now apply Hb.
Qed.

Lemma add_definition_works item obj cat text dangler d (full := u "_" ++ lower cat ++ u "." ++ obj) :
  in_order d -> (exists r, within d r None) -> names_object item obj -> lower obj = obj -> length full <= 75 ->
  ~ In full (map fst (k_blocks d)) -> dangler = true \/ catdef d (lower cat) ->
  exists d' t' root, add_definition item cat text dangler d = (d', Ret full) /\ in_order d'
    /\ changed [(a_def, VStr full); (a_object, VStr obj); (a_category, VStr cat); (a_class, VStr (u "Datum")); (a_text, VStr text)] [] t'
    /\ (forall k s, says d' k s <-> k = full /\ s = t' \/ says d k s)
    /\ within d root None /\ (forall k p, within d' k p <-> k = full /\ p = Some root \/ within d k p)
    /\ (forall k s o, says d' k s -> In (k, (s, o)) (k_blocks d') -> o = true).
Proof.
  intros O Hr Hi Lo Hl Hn Hc. unfold add_definition.
  destruct (flags_step true d O) as (d1 & E1 & O1 & B1 & C1 & D1 & F1). rewrite E1. cbn [then_]. rewrite (object_ok item obj Hi).
  assert (Eb : (if dangler then Ret false else if negb (k_has cat d1) then Ret true else obind (k_item cat a_scope d1) (fun v => Ret (negb (veq_text (Some v) (u "Category"))))) = Ret false).
  { destruct dangler; [reflexivity|]. destruct Hc as [Hc|(t & S & T)]; [discriminate|]. apply says_iff in S as (I & o & E); [|exact O].
    unfold k_has. fold (isid d1 (lower cat)). rewrite D1, I. cbn [negb]. rewrite (item_ok d1 O1 cat a_scope t true (VStr (u "Category"))).
    - cbn [obind]. reflexivity.
    - now rewrite B1, E, I.
    - exact T. }
  rewrite Eb. cbn [look]. fold full.
  destruct (root_ok d1 O1) as (root & Er & Wr & Ir & Lr).
  { destruct Hr as (r & W). exists r. apply within_chd; [exact O1|]. rewrite C1. now apply within_chd in W. }
  rewrite Er. cbn [look].
  assert (Lf : lower full = full). { unfold full. unfold lower in *. rewrite !map_app, Lo. f_equal. f_equal. apply lower_idem. }
  assert (Hn1 : ~ In (lower full) (map fst (k_blocks d1))). { rewrite Lf. rewrite (blk_none d1), B1. apply blk_none in Hn. now rewrite Hn. }
  destruct (new_step full false root d1 O1 Hl eq_refl Hn1 Ir Lr _ eq_refl) as (E2 & O2 & B2 & C2 & D2).
  rewrite E2. cbn [then_]. rewrite Lf in *.
  assert (Q2 : k_ids (k_add full full root d1) = k_ids d1) by (unfold k_add; now destruct (dmem _ _ _)).
  rewrite Q2. set (d2 := set_ids _ (k_add full full root d1)) in *.
  set (l := [(a_def, VStr full); (a_object, VStr obj); (a_category, VStr cat); (a_class, VStr (u "Datum")); (a_text, VStr text)]).
  destruct (set_all_step full l d2 [] O2) as (d4 & E4 & O4 & B4 & C4 & D4 & F4). { now rewrite Lf, B2, eqb_same. }
  rewrite E4. cbn [then_]. rewrite Lf in B4. set (t' := puts l []) in *.
  exists d4, t', root. split; [reflexivity|]. split; [exact O4|].
  split; [|split; [|split; [|split]]].
  - split.
    + intros a v I. unfold t', l, puts. cbn [fold_left fst snd]. rewrite !tget_set.
      destruct I as [[= <- <-]|[[= <- <-]|[[= <- <-]|[[= <- <-]|[[= <- <-]|[]]]]]]; reflexivity.
    + intros b Nb. unfold t', l, puts. cbn [fold_left fst snd]. rewrite !tget_set.
      cbn [map fst In] in Nb. rewrite !eqb_diff; [reflexivity|..]; intros X; apply Nb; rewrite X; vm_compute; tauto.
  - apply says_after; [exact O|exact O4|exact Hn| |].
    + intros x. rewrite D4, D2, D1. reflexivity.
    + intros x. rewrite B4, B2, B1. destruct (str_eqb x full); [reflexivity|]. destruct (blk d x) as [(t0, o0)|]; reflexivity.
  - apply within_chd in Wr as (e & E & P); [|exact O1]. rewrite C1 in E. apply within_chd; [exact O|]. eauto.
  - apply (within_after d d4 full full (Some root) O O4 Hn). intros x. rewrite C4, C2, C1. reflexivity.
  - intros k s o S I. apply (blk_in d4 O4) in I. apply says_iff in S as (Ik & _); [|exact O4]. rewrite B4, B2, B1 in I. rewrite D4, D2, D1 in Ik.
    destruct (str_eqb k full); [congruence|]. destruct (blk d k) as [(t0, o0)|]; [|discriminate]. rewrite Ik in I. congruence.
Qed.
