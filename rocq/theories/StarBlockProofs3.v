(** Lemmas about StarBlockModel.v used by PropertiesBlock.v: case insensitivity,
    frame, locking, CreateLoop/RemoveItem/AddLoopName/ChangeItemOrder effects. *)
From Coq Require Import String Ascii List NArith ZArith Bool Lia Permutation.
From Verif Require Import PyBase PyFacts StarBlockModel StarBlockSpec StarBlockProofs StarBlockProofs2.
Import ListNotations.

(* ---------- name checks ---------- *)

Lemma lower_char_name_ascii c : ascii_name_char (lower_char c) = ascii_name_char c.
Proof.
  unfold ascii_name_char, lower_char.
  destruct (N.leb_spec 65 c), (N.leb_spec c 90); cbn [andb]; try reflexivity.
  destruct (N.leb_spec 33 (c+32)), (N.leb_spec (c+32) 126), (N.leb_spec 33 c), (N.leb_spec c 126);
    cbn; try reflexivity; lia.
Qed.

Lemma lower_char_name_uni c : uni_name_char (lower_char c) = uni_name_char c.
Proof.
  unfold lower_char.
  destruct (N.leb_spec 65 c), (N.leb_spec c 90); cbn [andb]; try reflexivity.
  assert (L : forall d, (65 <= d)%N -> (d <= 122)%N -> uni_name_char d = true).
  { intros d H1 H2. unfold uni_name_char.
    destruct (N.ltb_spec d 33); [lia|].
    destruct (N.ltb_spec 126 d); [lia|].
    destruct (N.ltb_spec 0xD7FF d); [lia|].
    destruct (N.ltb_spec 0xFDCF d); [lia|].
    destruct (N.eqb_spec d 0xFFFE); [lia|].
    destruct (N.eqb_spec d 0xFFFF); [lia|].
    destruct (N.ltb_spec 0x10000 d); [lia|]. reflexivity. }
  rewrite !L by lia. reflexivity.
Qed.

Lemma lower_char_us c : (lower_char c =? 95)%N = (c =? 95)%N.
Proof.
  unfold lower_char.
  destruct (N.leb_spec 65 c), (N.leb_spec c 90); cbn [andb]; try reflexivity.
  destruct (N.eqb_spec (c+32) 95), (N.eqb_spec c 95); try reflexivity; lia.
Qed.

Lemma check_data_name_lower m un n : check_data_name m un (lower n) = check_data_name m un n.
Proof.
  unfold check_data_name. rewrite lower_length. destruct (_ && _); [reflexivity|].
  destruct n as [|c n]; [reflexivity|].
  change (lower (c :: n)) with (lower_char c :: lower n). cbv iota.
  rewrite lower_char_us. destruct (negb _); [reflexivity|].
  replace (forallb (if un then uni_name_char else ascii_name_char) (lower_char c :: lower n))
    with (forallb (if un then uni_name_char else ascii_name_char) (c :: n)); [reflexivity|].
  change (lower_char c :: lower n) with (lower (c :: n)).
  induction (c :: n) as [|x l IH]; [reflexivity|]. cbn.
  rewrite IH. f_equal. destruct un; symmetry; [apply lower_char_name_uni|apply lower_char_name_ascii].
Qed.

Lemma check_data_name_ext m un n n' : lower n = lower n' -> check_data_name m un n = check_data_name m un n'.
Proof. intros H. rewrite <- check_data_name_lower, H. apply check_data_name_lower. Qed.

(** A name accepted by the check starts with an underscore. *)
Lemma check_data_name_us m un n : check_data_name m un n = Ret tt ->
  exists r, n = 95%N :: r.
Proof.
  unfold check_data_name. destruct (_ && _); [discriminate|].
  destruct n as [|c r]; [discriminate|].
  destruct (N.eqb_spec c 95) as [->|]; cbn [negb]; [eauto|discriminate].
Qed.

Lemma us_not_saves r : str_eqb (95%N :: r) (u "saves") = false.
Proof. reflexivity. Qed.
Lemma us_lower_not_saves n r : lower n = 95%N :: r -> str_eqb n (u "saves") = false.
Proof.
  destruct n as [|c n]; [reflexivity|]. cbn [lower map]. intros [= H _].
  cbn. destruct (N.eqb_spec c 115) as [->|]; [discriminate|reflexivity].
Qed.

(* ---------- C01 ---------- *)

Lemma get_item_ext k k' b :
  lower k = lower k' -> k <> u "saves" -> k' <> u "saves" -> get_item k b = get_item k' b.
Proof.
  intros E N1 N2. rewrite !get_full_entry, E.
  destruct (str_eqb_spec k (u "saves")); [contradiction|].
  destruct (str_eqb_spec k' (u "saves")); [contradiction|]. reflexivity.
Qed.

Lemma remove_item_ext k k' b : lower k = lower k' -> remove_item k b = remove_item k' b.
Proof. intros E. unfold remove_item. rewrite E, (find_loop_ext _ _ b E). reflexivity. Qed.

Lemma get_loop_names_ext k k' b : lower k = lower k' -> get_loop_names k b = get_loop_names k' b.
Proof. intros E. unfold get_loop_names. rewrite (find_loop_ext _ _ b E). reflexivity. Qed.

Lemma position_ext k k' b : lower k = lower k' ->
  get_item_position (ON k) b = get_item_position (ON k') b.
Proof.
  intros E. unfold get_item_position. rewrite (has_key_ext _ _ b E), E, (find_loop_ext _ _ b E). reflexivity.
Qed.

Lemma change_order_ext k k' p b : lower k = lower k' ->
  change_item_order (ON k) p b = change_item_order (ON k') p b.
Proof.
  intros E. unfold change_item_order. rewrite E, (find_loop_ext _ _ b E). reflexivity.
Qed.

Lemma same_spelling_refl a : same_but_spelling a a.
Proof. repeat split. Qed.

Lemma store_item_ext k k' s v b : lower k = lower k' ->
  same_but_spelling (store_item k s v b) (store_item k' s v b).
Proof.
  intros E. unfold store_item, same_but_spelling.
  cbn [b_data b_loops b_order b_true b_over b_max b_uni]. rewrite E.
  repeat split. rewrite !dkeys_app. reflexivity.
Qed.

Lemma add_item_ext k k' v b : lower k = lower k' ->
  snd (add_item k v false b) = snd (add_item k' v false b)
  /\ same_but_spelling (fst (add_item k v false b)) (fst (add_item k' v false b)).
Proof.
  intros E. unfold add_item. rewrite (check_data_name_ext _ _ _ _ E), (has_key_ext _ _ b E).
  destruct (check_data_name _ _ k') as [[]|]; [|split; [reflexivity|apply same_spelling_refl]].
  destruct (_ && _); [split; [reflexivity|apply same_spelling_refl]|].
  destruct (regularise v) as [[reg emp]|]; [|split; [reflexivity|apply same_spelling_refl]].
  destruct (check_item_value _ reg) as [[]|]; [|split; [reflexivity|apply same_spelling_refl]].
  destruct (check_stringiness reg); (split; [reflexivity|now apply store_item_ext]).
Qed.

Lemma set_item_ext k k' v b : lower k = lower k' -> k <> u "saves" -> k' <> u "saves" ->
  snd (set_item k v b) = snd (set_item k' v b)
  /\ same_but_spelling (fst (set_item k v b)) (fst (set_item k' v b)).
Proof.
  intros E N1 N2. unfold set_item.
  destruct (str_eqb_spec k (u "saves")); [contradiction|].
  destruct (str_eqb_spec k' (u "saves")); [contradiction|]. now apply add_item_ext.
Qed.

Lemma set_item_spelling k v b b' : WF b -> set_item k v b = (b', Ret tt) ->
  dget str_eqb (lower k) (b_true b') = Some k
  /\ forall k2, k2 <> lower k -> dget str_eqb k2 (b_true b') = dget str_eqb k2 (b_true b).
Proof.
  intros W H. apply set_item_ok in H. apply add_item_ok in H as (e & _ & _ & _ & _ & ->).
  unfold store_item. cbn [b_true]. split.
  - rewrite dget_app, dget_ddel_eq; auto using str_eqb_spec.
    + cbn. now rewrite str_eqb_refl.
    + eapply Permutation_NoDup; [symmetry; apply (wf_true b W)|apply (wf_keys b W)].
  - intros k2 N. rewrite dget_app, dget_ddel_neq; auto using str_eqb_spec.
    destruct (dget str_eqb k2 (b_true b)); [reflexivity|]. cbn.
    destruct (str_eqb_spec k2 (lower k)); [contradiction|reflexivity].
Qed.

(* ---------- C02 ---------- *)

Lemma set_item_read k v b b' k' :
  set_item k v b = (b', Ret tt) -> lower k' = lower k -> get_item k' b' = Ret v.
Proof.
  intros H E. apply set_item_ok in H. apply add_item_ok in H as (e & C & R & _ & _ & ->).
  rewrite get_full_entry, store_dget, E, str_eqb_refl.
  destruct (check_data_name_us _ _ _ C) as (r & ->).
  rewrite (us_lower_not_saves k' (lower r)) by assumption.
  rewrite <- surjective_pairing. now apply entry_val_add.
Qed.

Lemma get_item_data k b b' :
  dget str_eqb (lower k) (b_data b') = dget str_eqb (lower k) (b_data b) -> get_item k b' = get_item k b.
Proof. intros E. rewrite !get_full_entry, E. reflexivity. Qed.

Lemma add_item_frame k v pre b k2 : k2 <> lower k ->
  dget str_eqb k2 (b_data (fst (add_item k v pre b))) = dget str_eqb k2 (b_data b).
Proof.
  intros N. unfold add_item.
  assert (S : forall s w, dget str_eqb k2 (b_data (store_item k s w b)) = dget str_eqb k2 (b_data b)).
  { intros s w. rewrite store_dget. destruct (str_eqb_spec k2 (lower k)); [contradiction|reflexivity]. }
  destruct (if pre then Ret tt else check_data_name _ _ k) as [[]|]; [|reflexivity].
  destruct (_ && _); [reflexivity|].
  destruct pre; [apply S|].
  destruct (regularise v) as [[reg emp]|]; [|reflexivity].
  destruct (check_item_value _ reg) as [[]|]; [|reflexivity].
  destruct (check_stringiness reg); apply S.
Qed.

Lemma set_item_frame k v b k2 : k2 <> lower k ->
  dget str_eqb k2 (b_data (fst (set_item k v b))) = dget str_eqb k2 (b_data b).
Proof.
  intros N. unfold set_item. destruct (str_eqb _ _); [reflexivity|]. now apply add_item_frame.
Qed.

Lemma remove_item_data k b :
  b_data (fst (remove_item k b)) = ddel str_eqb (lower k) (b_data b).
Proof.
  unfold remove_item. rewrite has_key_lower. destruct (has_key k b) eqn:HK.
  - destruct (find_loop k b).
    + destruct (remove1 _ _ _); [destruct (mem _ _ _)|]; reflexivity.
    + destruct (mem _ _ _); reflexivity.
  - cbn. symmetry. apply ddel_notin; [apply str_eqb_spec|]. now apply has_key_false.
Qed.

Lemma listify_frame names k2 : forall b, ~ In k2 (map lower names) ->
  dget str_eqb k2 (b_data (fst (listify_items names b))) = dget str_eqb k2 (b_data b).
Proof.
  induction names as [|n r IH]; intros b N; cbn [listify_items]; [reflexivity|].
  destruct (get_item n b) as [v|]; [|reflexivity].
  assert (F : dget str_eqb k2 (b_data (fst (set_item n (VList [v]) b))) = dget str_eqb k2 (b_data b)).
  { apply set_item_frame. intros ->. apply N. now left. }
  destruct (set_item n (VList [v]) b) as [b' [|]]; cbn in F |- *; [|assumption].
  rewrite IH; [assumption|]. intro; apply N; now right.
Qed.

Lemma length_check_frame names b k2 : ~ In k2 (map lower names) ->
  dget str_eqb k2 (b_data (fst (loop_length_check names b))) = dget str_eqb k2 (b_data b).
Proof.
  intros N. unfold loop_length_check. destruct (get_items names b); [|reflexivity].
  destruct (Nat.eqb _ _); [destruct (all_same_len _); reflexivity|].
  destruct (negb _); [reflexivity|]. now apply listify_frame.
Qed.

Lemma drop_empty_data ks : forall b, b_data (fst (drop_empty ks b)) = b_data b.
Proof.
  induction ks as [|k r IH]; intros b; cbn; [reflexivity|].
  destruct (mem _ _ _); [|reflexivity]. rewrite IH. reflexivity.
Qed.

Lemma create_loop_data names order lc b :
  b_data (fst (create_loop names order lc b))
  = b_data (fst (if lc then loop_length_check names b else (b, Ret tt))).
Proof.
  unfold create_loop. destruct (if lc then _ else _) as [b1 [[]|e]]; [|reflexivity].
  cbv zeta.
  match goal with |- context [drop_empty ?ks ?b2] =>
    pose proof (drop_empty_data ks b2) as D; destruct (drop_empty ks b2) as [b3 [[]|]] end;
  cbn in *; assumption.
Qed.

Lemma update_items_frame kvs k2 : forall b, ~ In k2 (map lower (map fst kvs)) ->
  dget str_eqb k2 (b_data (fst (update_items kvs b))) = dget str_eqb k2 (b_data b).
Proof.
  induction kvs as [|[k v] r IH]; intros b N; cbn [update_items]; [reflexivity|].
  assert (F : dget str_eqb k2 (b_data (fst (add_item k v false b))) = dget str_eqb k2 (b_data b)).
  { apply add_item_frame. intros ->. apply N. now left. }
  destruct (add_item k v false b) as [b' [|]]; cbn in F |- *; [|assumption].
  rewrite IH; [assumption|]. intro; apply N; now right.
Qed.

Lemma add_loop_name_data o n b : b_data (fst (add_loop_name o n b)) = b_data b.
Proof.
  unfold add_loop_name. destruct (find_loop o b); [|reflexivity].
  destruct (mem _ _ _); [reflexivity|].
  destruct (obind _ _); [|reflexivity]. destruct (obind _ _); [|reflexivity].
  destruct (negb _); reflexivity.
Qed.

Lemma add_loop_names_data d ns : forall b, b_data (fst (add_loop_names d ns b)) = b_data b.
Proof.
  induction ns as [|n r IH]; intros b; cbn [add_loop_names]; [reflexivity|].
  pose proof (add_loop_name_data d n b) as D.
  destruct (add_loop_name d n b) as [b' [|]]; cbn in *; [|assumption]. rewrite IH. assumption.
Qed.

Lemma change_order_data it p b : b_data (fst (change_item_order it p b)) = b_data b.
Proof.
  unfold change_item_order. destruct it.
  - destruct (find_loop n b); [reflexivity|]. destruct (mem _ _ _); reflexivity.
  - destruct (b_loops b); [|reflexivity]. destruct (mem _ _ _); reflexivity.
Qed.

Lemma in_combine_fst {A B} (l : list A) : forall (r : list B) x, In x (map fst (combine l r)) -> In x l.
Proof.
  induction l as [|a l IH]; intros [|c r] x; cbn; try contradiction.
  intros [->|I]; [now left|right; eauto].
Qed.

Lemma run_op_frame o b k :
  ~ In (lower k) (map lower (touched o)) -> o <> OClear ->
  dget str_eqb (lower k) (b_data (fst (run_op o b))) = dget str_eqb (lower k) (b_data b).
Proof.
  intros N NC. destruct o; cbn [run_op fst touched map] in *.
  - apply set_item_frame. intros E. apply N. left. congruence.
  - rewrite remove_item_data. apply dget_ddel_neq; [apply str_eqb_spec|].
    intros E. apply N. left. congruence.
  - rewrite create_loop_data. now apply length_check_frame.
  - now rewrite add_loop_name_data.
  - unfold add_to_loop. pose proof (update_items_frame kvs _ b N) as F.
    destruct (update_items kvs b) as [b' [|]]; cbn in F; [|assumption].
    now rewrite add_loop_names_data.
  - unfold add_loop_item.
    assert (N' : ~ In (lower k) (map lower (map fst (combine names vals)))).
    { intros I. apply N. apply in_map_iff in I as (x & E & I). rewrite <- E. apply in_map.
      eapply in_combine_fst; eauto. }
    pose proof (update_items_frame _ _ b N') as F.
    destruct (update_items (combine names vals) b) as [b' [|]]; cbn [fst] in F |- *; [|assumption].
    rewrite create_loop_data. now rewrite length_check_frame.
  - now rewrite change_order_data.
  - reflexivity.
  - unfold setmaxnamelength. cbv zeta. destruct (_ && _); reflexivity.
  - reflexivity.
  - congruence.
Qed.

Lemma remove_item_gone k b k' : WF b -> lower k' = lower k ->
  has_key k' (fst (remove_item k b)) = false.
Proof.
  intros W E. unfold has_key, dmem. rewrite remove_item_data, E, dget_ddel_eq; auto using str_eqb_spec.
  apply (wf_keys b W).
Qed.

(* ---------- C04 ---------- *)

Lemma locked_add k v b : b_over b = false -> has_key k b = true -> exists e, set_item k v b = (b, Raise e).
Proof.
  intros O K. unfold set_item. destruct (str_eqb _ _); [eauto|].
  unfold add_item. destruct (check_data_name _ _ _) as [[]|]; [|eauto].
  rewrite K, O. cbn. eauto.
Qed.

Lemma locked_add_item k v pre b : b_over b = false -> has_key k b = true -> exists e, add_item k v pre b = (b, Raise e).
Proof.
  intros O K. unfold add_item. destruct (if pre then _ else _) as [[]|]; [|eauto].
  rewrite K, O. cbn. eauto.
Qed.

Lemma add_item_over k v pre b : b_over (fst (add_item k v pre b)) = b_over b.
Proof.
  unfold add_item. destruct (if pre then _ else _) as [[]|]; [|reflexivity].
  destruct (_ && _); [reflexivity|]. destruct pre; [reflexivity|].
  destruct (regularise v) as [[reg emp]|]; [|reflexivity].
  destruct (check_item_value _ reg) as [[]|]; [|reflexivity].
  destruct (check_stringiness reg); reflexivity.
Qed.

Lemma add_item_locked_frame k v pre b k2 : b_over b = false -> dmem str_eqb k2 (b_data b) = true ->
  dget str_eqb k2 (b_data (fst (add_item k v pre b))) = dget str_eqb k2 (b_data b).
Proof.
  intros O K. destruct (str_eqb_spec k2 (lower k)) as [->|N].
  - destruct (locked_add_item k v pre b O K) as (e & ->). reflexivity.
  - now apply add_item_frame.
Qed.

Lemma dmem_ext {V} k (d d' : list (str * V)) : dget str_eqb k d = dget str_eqb k d' -> dmem str_eqb k d = dmem str_eqb k d'.
Proof. unfold dmem. now intros ->. Qed.

Lemma set_item_locked_frame k v b k2 : b_over b = false -> dmem str_eqb k2 (b_data b) = true ->
  dget str_eqb k2 (b_data (fst (set_item k v b))) = dget str_eqb k2 (b_data b).
Proof. unfold set_item. destruct (str_eqb _ _); [reflexivity|]. apply add_item_locked_frame. Qed.
Lemma set_item_over k v b : b_over (fst (set_item k v b)) = b_over b.
Proof. unfold set_item. destruct (str_eqb _ _); [reflexivity|]. apply add_item_over. Qed.

Lemma update_items_locked kvs k2 : forall b, b_over b = false -> dmem str_eqb k2 (b_data b) = true ->
  b_over (fst (update_items kvs b)) = false /\
  dget str_eqb k2 (b_data (fst (update_items kvs b))) = dget str_eqb k2 (b_data b).
Proof.
  induction kvs as [|[k v] r IH]; intros b O K; cbn [update_items]; [auto|].
  pose proof (add_item_locked_frame k v false b k2 O K) as F. pose proof (add_item_over k v false b) as O1.
  destruct (add_item k v false b) as [b' [|]]; cbn in F, O1 |- *; [|rewrite O1; auto].
  rewrite O in O1. destruct (IH b' O1) as [A B]; [now rewrite (dmem_ext _ _ _ F)|].
  split; [assumption|congruence].
Qed.

Lemma listify_locked names k2 : forall b, b_over b = false -> dmem str_eqb k2 (b_data b) = true ->
  b_over (fst (listify_items names b)) = false /\
  dget str_eqb k2 (b_data (fst (listify_items names b))) = dget str_eqb k2 (b_data b).
Proof.
  induction names as [|n r IH]; intros b O K; cbn [listify_items]; [auto|].
  destruct (get_item n b) as [v|]; [|auto].
  pose proof (set_item_locked_frame n (VList [v]) b k2 O K) as F. pose proof (set_item_over n (VList [v]) b) as O1.
  destruct (set_item n (VList [v]) b) as [b' [|]]; cbn in F, O1 |- *; [|rewrite O1; auto].
  rewrite O in O1. destruct (IH b' O1) as [A B]; [now rewrite (dmem_ext _ _ _ F)|].
  split; [assumption|congruence].
Qed.

Lemma length_check_locked names k2 b : b_over b = false -> dmem str_eqb k2 (b_data b) = true ->
  b_over (fst (loop_length_check names b)) = false /\
  dget str_eqb k2 (b_data (fst (loop_length_check names b))) = dget str_eqb k2 (b_data b).
Proof.
  intros O K. unfold loop_length_check. destruct (get_items names b); [|auto].
  destruct (Nat.eqb _ _); [destruct (all_same_len _); auto|].
  destruct (negb _); [auto|]. now apply listify_locked.
Qed.

Lemma drop_empty_over ks : forall b, b_over (fst (drop_empty ks b)) = b_over b.
Proof.
  induction ks as [|k r IH]; intros b; cbn; [reflexivity|].
  destruct (mem _ _ _); [|reflexivity]. rewrite IH. reflexivity.
Qed.

Lemma create_loop_over names order lc b :
  b_over (fst (create_loop names order lc b))
  = b_over (fst (if lc then loop_length_check names b else (b, Ret tt))).
Proof.
  unfold create_loop. destruct (if lc then _ else _) as [b1 [[]|e]]; [|reflexivity].
  cbv zeta.
  match goal with |- context [drop_empty ?ks ?b2] =>
    pose proof (drop_empty_over ks b2) as D; destruct (drop_empty ks b2) as [b3 [[]|]] end;
  cbn in *; assumption.
Qed.

Lemma add_loop_name_over o n b : b_over (fst (add_loop_name o n b)) = b_over b.
Proof.
  unfold add_loop_name. destruct (find_loop o b); [|reflexivity].
  destruct (mem _ _ _); [reflexivity|].
  destruct (obind _ _); [|reflexivity]. destruct (obind _ _); [|reflexivity].
  destruct (negb _); reflexivity.
Qed.
Lemma add_loop_names_over d ns : forall b, b_over (fst (add_loop_names d ns b)) = b_over b.
Proof.
  induction ns as [|n r IH]; intros b; cbn [add_loop_names]; [reflexivity|].
  pose proof (add_loop_name_over d n b) as D.
  destruct (add_loop_name d n b) as [b' [|]]; cbn in *; [|assumption]. rewrite IH. assumption.
Qed.

Lemma run_op_locked o b k2 : keeps_lock o -> b_over b = false -> dmem str_eqb k2 (b_data b) = true ->
  b_over (fst (run_op o b)) = false /\
  dget str_eqb k2 (b_data (fst (run_op o b))) = dget str_eqb k2 (b_data b).
Proof.
  intros KL O K. destruct o; cbn [run_op fst] in *.
  - split; [rewrite set_item_over; assumption|now apply set_item_locked_frame].
  - contradiction.
  - rewrite create_loop_over, create_loop_data. now apply length_check_locked.
  - rewrite add_loop_name_over, add_loop_name_data. auto.
  - unfold add_to_loop. destruct (update_items_locked kvs k2 b O K) as [A B].
    destruct (update_items kvs b) as [b' [|]]; cbn in A, B; [|auto].
    rewrite add_loop_names_over, add_loop_names_data. auto.
  - unfold add_loop_item. destruct (update_items_locked (combine names vals) k2 b O K) as [A B].
    destruct (update_items (combine names vals) b) as [b' [|]]; cbn [fst] in A, B |- *; [|auto].
    rewrite create_loop_over, create_loop_data.
    destruct (length_check_locked names k2 b' A) as [C D]; [now rewrite (dmem_ext _ _ _ B)|].
    split; [assumption|congruence].
  - rewrite change_order_data. split; [|reflexivity].
    unfold change_item_order. destruct it.
    + destruct (find_loop n b); [assumption|]. destruct (mem _ _ _); assumption.
    + destruct (b_loops b); [|assumption]. destruct (mem _ _ _); assumption.
  - destruct ov; [contradiction|]. auto.
  - unfold setmaxnamelength. cbv zeta. destruct (_ && _); auto.
  - auto.
  - contradiction.
Qed.

Lemma run_ops_locked os k : forall b, Forall keeps_lock os -> b_over b = false -> has_key k b = true ->
  get_item k (run_ops os b) = get_item k b.
Proof.
  induction os as [|o os IH]; intros b F O K; [reflexivity|].
  inversion F as [|? ? F1 F2]; subst. cbn [run_ops fold_left].
  destruct (run_op_locked o b (lower k) F1 O K) as [A B].
  change (get_item k (run_ops os (fst (run_op o b))) = get_item k b).
  rewrite IH; auto.
  - now apply get_item_data.
  - unfold has_key. now rewrite (dmem_ext _ _ _ B).
Qed.
