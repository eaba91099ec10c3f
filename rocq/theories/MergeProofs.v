(** Lemmas about merging blocks. *)
From Coq Require Import String Ascii List NArith ZArith Bool Lia Permutation.
From Verif Require Import PyBase PyFacts StarBlockModel MergeModel StarBlockSpec LoopSpec MergeSpec
  StarBlockProofs StarBlockProofs2 StarBlockProofs3 StarBlockProofs4 StarBlockProofs5 WriteProofs4.
Import ListNotations.
Open Scope nat_scope.

(** ** Copying items *)
Record items_copied (keys : list str) (nb b b' : block) : Prop := mkCopied {
  ic_wf : WF b';
  ic_loops : b_loops b' = b_loops b;
  ic_max : b_max b' = b_max b;
  ic_uni : b_uni b' = b_uni b;
  ic_over : b_over b' = b_over b;
  ic_taken : forall n, In (lower n) keys -> get_item n b' = get_item n nb;
  ic_kept : forall n, ~ In (lower n) keys -> get_item n b' = get_item n b;
  ic_keys : forall n, In n (b_keys b') <-> In n (b_keys b) \/ In n keys;
  ic_case : forall n, ~ In n keys -> dget str_eqb n (b_true b') = dget str_eqb n (b_true b)
}.
Lemma copied_nil nb b : WF b -> items_copied [] nb b b.
Proof. intros W. constructor; auto; intros n; [intros []|]. cbn. tauto. Qed.
Lemma set_item_frame_get k v b b' n : set_item k v b = (b', Ret tt) -> lower n <> lower k -> get_item n b' = get_item n b.
Proof.
  intros E N. apply get_item_data. pose proof (set_item_frame k v b (lower n) N) as F. rewrite E in F. exact F.
Qed.
Lemma keys_dget b n : In n (b_keys b) <-> dget str_eqb n (b_data b) <> None.
Proof.
  unfold b_keys. split.
  - intros H X. apply (dget_None _ str_eqb_spec) in X. contradiction.
  - intros H. destruct (dget str_eqb n (b_data b)) as [v|] eqn:E; [|congruence]. apply (dget_In _ str_eqb_spec) in E. apply in_map_iff. exists (n, v). auto.
Qed.
Lemma set_item_keys k v b b' : set_item k v b = (b', Ret tt) -> forall n, In n (b_keys b') <-> In n (b_keys b) \/ n = lower k.
Proof.
  intros E n. apply set_item_ok, add_item_ok in E as (e & _ & _ & _ & _ & ->). rewrite !keys_dget, store_dget.
  destruct (str_eqb_spec n (lower k)) as [->|N]; [|tauto]. split; [tauto|]. intros _. discriminate.
Qed.
Lemma set_item_parts k v b b' : set_item k v b = (b', Ret tt) ->
  b_loops b' = b_loops b /\ b_max b' = b_max b /\ b_uni b' = b_uni b /\ b_over b' = b_over b.
Proof. intros E. apply set_item_ok, add_item_ok in E as (e & _ & _ & _ & _ & ->). cbn. auto. Qed.

Lemma replace_items_ok keys nb : forall b b', WF b -> NoDup keys -> (forall k, In k keys -> lower k = k) ->
  replace_items keys nb b = (b', Ret tt) -> items_copied keys nb b b'.
Proof.
  induction keys as [|k r IH]; intros b b' W N L; cbn [replace_items].
  - intros [= <-]. now apply copied_nil.
  - unfold copy_item. destruct (get_item k nb) as [v|] eqn:G; [|discriminate]. destruct (set_item k v b) as [b1 [[]|]] eqn:E; [|discriminate].
    intros H. inversion N as [|? ? N1 N2]; subst.
    assert (WF b1) as W1 by (pose proof (set_item_wf k v b W) as X; now rewrite E in X).
    assert (lower k = k) as Lk by (apply L; now left).
    destruct (IH b1 b' W1 N2 (fun m Hm => L m (or_intror Hm)) H) as [I1 I2 I3 I4 I5 I6 I7 I8 I9].
    destruct (set_item_parts k v b b1 E) as (P1 & P2 & P3 & P4).
    constructor; [exact I1|congruence|congruence|congruence|congruence| | | |].
    + intros n [Hn|Hn]; [|now apply I6]. rewrite I7 by (rewrite <- Hn; exact N1).
      rewrite (set_item_read k v b b1 n E) by congruence. symmetry. apply get_item_spelled. congruence.
    + intros n Hn. rewrite I7 by (intros X; apply Hn; now right). apply (set_item_frame_get k v b b1 n E). intros X. apply Hn. left. congruence.
    + intros n. rewrite I8, (set_item_keys k v b b1 E n), Lk. cbn [In]. split; intuition.
    + intros n Hn. rewrite I9 by (intros X; apply Hn; now right). apply (set_item_spelling k v b b1 W E). intros X. apply Hn. left. congruence.
Qed.
Lemma strict_items_ok exc keys nb : forall b b', NoDup keys -> (forall k, In k keys -> lower k = k) -> strict_items exc keys nb b = (b', Ret tt) ->
  replace_items (filter (fun k => negb (mem str_eqb k exc)) keys) nb b = (b', Ret tt) /\
  (forall n, In n keys -> In n (b_keys b) -> In n exc).
Proof.
  induction keys as [|k r IH]; intros b b' N L; cbn [strict_items filter].
  - intros [= <-]. split; [reflexivity|intros ? []].
  - inversion N as [|? ? N1 N2]; subst. assert (lower k = k) as Lk by (apply L; now left).
    pose proof (fun m Hm => L m (or_intror Hm)) as L2. destruct (mem str_eqb k exc) eqn:M; cbn [negb].
    + rewrite andb_false_r. intros H. destruct (IH b b' N2 L2 H) as [I1 I2]. split; [exact I1|].
      intros n [->|Hn] Hb; [now apply (mem_In _ str_eqb_spec)|now apply I2].
    + rewrite andb_true_r. destruct (has_key k b) eqn:K; [discriminate|]. cbn [replace_items].
      destruct (copy_item nb k b) as [b1 [[]|]] eqn:E; [|discriminate]. intros H. destruct (IH b1 b' N2 L2 H) as [I1 I2]. split; [exact I1|].
      intros n [->|Hn] Hb.
      * apply has_key_false in K. rewrite Lk in K. contradiction.
      * apply I2; [exact Hn|]. unfold copy_item in E. destruct (get_item k nb); [|discriminate]. apply (set_item_keys _ _ _ _ E). now left.
Qed.
(** A common dataname that is not excepted is always noticed. *)
Lemma strict_items_common exc keys nb n : In n keys -> lower n = n -> ~ In n exc -> forall b, In n (b_keys b) -> exists e, snd (strict_items exc keys nb b) = Raise e.
Proof.
  intros Hn Ln Hx. induction keys as [|k r IH]; [destruct Hn|]. intros b Hb. cbn [strict_items].
  destruct Hn as [->|Hn].
  - apply (mem_false _ str_eqb_spec) in Hx. rewrite Hx. cbn [negb]. rewrite andb_true_r. assert (has_key n b = true) as -> by (apply has_key_In; now rewrite Ln).
    cbn. eauto.
  - destruct (mem str_eqb k exc); cbn [negb]; [rewrite andb_false_r; now apply IH|]. rewrite andb_true_r.
    destruct (has_key k b); [cbn; eauto|]. destruct (copy_item nb k b) as [b1 [[]|e]] eqn:E; [|cbn; eauto]. apply (IH Hn).
    unfold copy_item in E. destruct (get_item k nb); [|discriminate]. apply (set_item_keys _ _ _ _ E). now left.
Qed.
(** Totality. *)
Lemma accepts_keep a a' nb : b_max a' = b_max a -> b_uni a' = b_uni a -> accepts a nb -> accepts a' nb.
Proof. intros E1 E2 H n Hn. rewrite E1, E2. now apply H. Qed.
Lemma replace_items_total keys nb : forall b, accepts b nb -> incl keys (b_keys nb) ->
  (b_over b = true \/ (NoDup keys /\ (forall k, In k keys -> lower k = k /\ ~ In k (b_keys b)))) ->
  exists b', replace_items keys nb b = (b', Ret tt).
Proof.
  induction keys as [|k r IH]; intros b A I O; cbn [replace_items]; [eauto|]. unfold copy_item.
  destruct (A k (I k (or_introl eq_refl))) as (C & v & G & AV). rewrite G.
  destruct (set_item_succeeds k v b C AV) as (b1 & E).
  { intros K. destruct O as [O|[_ O]]; [exact O|]. destruct (O k (or_introl eq_refl)) as [Lk Nk]. apply has_key_In in K. rewrite Lk in K. contradiction. }
  rewrite E. destruct (set_item_parts k v b b1 E) as (P1 & P2 & P3 & P4). apply IH.
  - now apply (accepts_keep b b1).
  - intros x Hx. apply I. now right.
  - destruct O as [O|[N O]]; [left; congruence|right]. inversion N as [|? ? N1 N2]; subst. split; [exact N2|].
    intros m Hm. destruct (O m (or_intror Hm)) as [Lm Nm]. split; [exact Lm|]. intros X. apply (set_item_keys _ _ _ _ E) in X as [X| ->]; [contradiction|].
    apply N1. destruct (O k (or_introl eq_refl)) as [Lk _]. now rewrite <- Lk.
Qed.
Lemma strict_items_total exc keys nb : forall b, accepts b nb -> incl keys (b_keys nb) -> NoDup keys -> (forall k, In k keys -> lower k = k) ->
  (exists n, In n keys /\ In n (b_keys b) /\ ~ In n exc) /\ snd (strict_items exc keys nb b) = Raise StarErr \/
  (forall n, In n keys -> In n (b_keys b) -> In n exc) /\ exists b', strict_items exc keys nb b = (b', Ret tt).
Proof.
  induction keys as [|k r IH]; intros b A I N L; cbn [strict_items]; [right; split; [intros ? []|eauto]|].
  inversion N as [|? ? N1 N2]; subst. assert (lower k = k) as Lk by (apply L; now left).
  pose proof (fun m Hm => L m (or_intror Hm)) as L2. pose proof (fun m Hm => I m (or_intror Hm)) as I2.
  destruct (mem str_eqb k exc) eqn:M; cbn [negb].
  - rewrite andb_false_r. apply (mem_In _ str_eqb_spec) in M. destruct (IH b A I2 N2 L2) as [((n & H1 & H2) & E)|(H & E)].
    + left. split; [exists n; split; [now right|exact H2]|exact E].
    + right. split; [|exact E]. intros n [->|Hn]; [auto|now apply H].
  - rewrite andb_true_r. apply (mem_false _ str_eqb_spec) in M. destruct (has_key k b) eqn:K.
    + left. split; [|reflexivity]. exists k. split; [now left|]. apply has_key_In in K. rewrite Lk in K. auto.
    + apply has_key_false in K. rewrite Lk in K.
      destruct (A k (I k (or_introl eq_refl))) as (C & v & G & AV). unfold copy_item. rewrite G.
      destruct (set_item_succeeds k v b C AV) as (b1 & E). { intros X. apply has_key_In in X. rewrite Lk in X. contradiction. }
      rewrite E. destruct (set_item_parts k v b b1 E) as (P1 & P2 & P3 & P4).
      destruct (IH b1 (accepts_keep b b1 nb P2 P3 A) I2 N2 L2) as [((n & H1 & H2 & H3) & X)|(H & X)].
      * left. split; [|exact X]. exists n. split; [now right|]. split; [|exact H3]. apply (set_item_keys _ _ _ _ E) in H2 as [H2| ->]; [exact H2|].
        rewrite Lk in H1. contradiction.
      * right. split; [|exact X]. intros n [->|Hn] Hb; [contradiction|]. apply H; [exact Hn|]. apply (set_item_keys _ _ _ _ E). now left.
Qed.

(** ** Copying loops *)
Lemma columns_check names b : names <> [] -> same_length_columns b names -> loop_length_check names b = (b, Ret tt).
Proof.
  intros NE (rows & H). destruct (check_cases names b) as [e L (n & I & X)|L C|L X|L NE2 A NC].
  - destruct (H n I) as (l & G & _). now apply X in G.
  - exact L.
  - exfalso. apply X. left. now exists rows.
  - exfalso. destruct names as [|n r]; [congruence|]. destruct (H n (or_introl eq_refl)) as (l & G & _). destruct (A n (or_introl eq_refl)) as (v & G' & P).
    rewrite G in G'. injection G' as <-. discriminate.
Qed.
Lemma lower_map_id (l : list str) : (forall n, In n l -> lower n = n) -> map lower l = l.
Proof. intros H. rewrite <- (map_id l) at 2. now apply map_ext_in. Qed.
Record loops_copied (ls : list (Z * list str)) (b b' : block) : Prop := mkLoopsCopied {
  lp_wf : WF b';
  lp_data : b_data b' = b_data b;
  lp_true : b_true b' = b_true b;
  lp_new : forall k cols n, In (k, cols) ls -> In n cols -> get_loop_names n b' = Ret cols;
  lp_others : forall n, ~ In (lower n) (concat (map snd ls)) ->
    get_loop_names n b' = match get_loop_names n b with
                          | Ret cols => Ret (filter (fun c => negb (mem str_eqb c (concat (map snd ls)))) cols)
                          | Raise e => Raise e end
}.
Lemma copy_loops_ok ls : forall b, WF b -> NoDup (concat (map snd ls)) -> (forall n, In n (concat (map snd ls)) -> lower n = n) ->
  (forall k cols, In (k, cols) ls -> cols <> [] /\ same_length_columns b cols) ->
  exists b', copy_loops ls b = (b', Ret tt) /\ loops_copied ls b b'.
Proof.
  induction ls as [|[k cols] r IH]; intros b W N L H; cbn [copy_loops].
  - exists b. split; [reflexivity|]. constructor; auto; [intros ? ? ? []|]. intros n _. cbn [map concat]. destruct (get_loop_names n b) as [c|]; [|reflexivity].
    f_equal. symmetry. apply filter_all. reflexivity.
  - destruct (H k cols (or_introl eq_refl)) as [NE SL]. pose proof (columns_check cols b NE SL) as LC.
    cbn [map concat snd] in N, L. apply NoDup_app_iff in N as (N1 & N2 & N3).
    assert (map lower cols = cols) as Lc by (apply lower_map_id; intros n Hn; apply L; apply in_or_app; now left).
    assert (distinct_names cols) as D by (unfold distinct_names; now rewrite Lc).
    pose proof (create_loop_success cols (-1) b b W LC) as E. rewrite E.
    set (b1 := loop_tables cols (-1) b) in *.
    assert (WF b1) as W1 by (pose proof (create_loop_wf cols (-1) b W D) as X; now rewrite E in X).
    destruct (create_loop_effect cols (-1) b b1 W D E) as (no & [C1 C2 C3 C4 C5 C6]).
    destruct (IH b1 W1 N2) as (b' & E' & [P1 P2 P3 P4 P5]).
    { intros n Hn. apply L. apply in_or_app. now right. }
    { intros k' c' Hc. destruct (H k' c' (or_intror Hc)) as [X1 X2]. split; [exact X1|]. exact X2. }
    exists b'. split; [exact E'|]. constructor; [exact P1|rewrite P2; reflexivity|rewrite P3; reflexivity| |].
    + intros k' c' n [X|X] Hn; [|now apply (P4 k' c')]. injection X as <- <-.
      assert (lower n = n) as Ln by (apply L; apply in_or_app; now left).
      rewrite P5 by (rewrite Ln; now apply N3). rewrite (C1 n Hn), Lc. f_equal. apply filter_all. intros m Hm. apply negb_true_iff, (mem_false _ str_eqb_spec). now apply N3.
    + intros n Hn. cbn [map concat snd] in *. rewrite P5 by (intros X; apply Hn; apply in_or_app; now right).
      rewrite C2 by (rewrite Lc; intros X; apply Hn; apply in_or_app; now left).
      destruct (get_loop_names n b) as [c|]; [|reflexivity]. f_equal. unfold without. rewrite Lc. clear.
      induction c as [|x c IH]; [reflexivity|]. cbn [filter].
      assert (mem str_eqb x (cols ++ concat (map snd r)) = mem str_eqb x cols || mem str_eqb x (concat (map snd r))) as ->.
      { apply eq_true_iff_eq. rewrite orb_true_iff, !(mem_In _ str_eqb_spec), in_app_iff. tauto. }
      destruct (mem str_eqb x cols); cbn [negb orb]; [exact IH|]. cbn [filter]. destruct (mem str_eqb x (concat (map snd r))); cbn [negb]; [exact IH|now f_equal].
Qed.

(** ** Spelling *)
Lemma update_dget (t : list (str * str)) : forall d n, dget str_eqb n (fold_left (fun d kt => dset str_eqb (fst kt) (snd kt) d) t d) =
  match dget str_eqb n (rev t) with Some x => Some x | None => dget str_eqb n d end.
Proof.
  induction t as [|[k x] t IH]; intros d n; cbn [fold_left rev]; [reflexivity|]. rewrite IH. cbn [fst snd].
  rewrite dget_app by apply str_eqb_spec. destruct (dget str_eqb n (rev t)); [reflexivity|]. cbn [dget].
  destruct (str_eqb_spec n k) as [->|N]; [apply dget_dset_eq, str_eqb_spec|apply dget_dset_neq; [apply str_eqb_spec|exact N]].
Qed.
Lemma dget_rev (t : list (str * str)) n : NoDup (dkeys t) -> dget str_eqb n (rev t) = dget str_eqb n t.
Proof.
  intros N. destruct (dget str_eqb n t) as [x|] eqn:E.
  - apply (dget_In_NoDup _ str_eqb_spec).
    + unfold dkeys. rewrite map_rev. apply (Permutation_NoDup (Permutation_rev _) N).
    + apply -> in_rev. now apply (dget_In _ str_eqb_spec).
  - apply (dget_None _ str_eqb_spec). apply (dget_None _ str_eqb_spec) in E. intros X. apply E. unfold dkeys in *. rewrite map_rev in X. now apply in_rev.
Qed.
Lemma true_NoDup b : WF b -> NoDup (dkeys (b_true b)).
Proof. intros W. apply (Permutation_NoDup (Permutation_sym (wf_true b W)) (wf_keys b W)). Qed.
Lemma update_case_dget nb b n : WF nb -> dget str_eqb n (b_true (update_case nb b)) =
  match dget str_eqb n (b_true nb) with Some x => Some x | None => dget str_eqb n (b_true b) end.
Proof. intros W. unfold update_case. cbn [b_true]. rewrite update_dget, dget_rev; [reflexivity|now apply true_NoDup]. Qed.
Lemma dset_keys_In (k x : str) d : In k (dkeys d) -> dkeys (dset str_eqb k x d) = dkeys d.
Proof.
  induction d as [|[k' y] d IH]; [intros []|]. cbn [dset dkeys map fst]. intros H. destruct (str_eqb_spec k k') as [->|N]; [reflexivity|].
  cbn [map fst]. f_equal. apply IH. destruct H as [H|H]; [congruence|exact H].
Qed.
Lemma update_keys (t : list (str * str)) : forall d, incl (dkeys t) (dkeys d) -> dkeys (fold_left (fun d kt => dset str_eqb (fst kt) (snd kt) d) t d) = dkeys d.
Proof.
  induction t as [|[k x] t IH]; intros d I; cbn [fold_left]; [reflexivity|]. cbn [fst snd].
  assert (dkeys (dset str_eqb k x d) = dkeys d) as E by (apply dset_keys_In; apply I; now left).
  rewrite IH; [exact E|]. rewrite E. intros m Hm. apply I. now right.
Qed.
Lemma update_case_wf nb b : WF nb -> WF b -> incl (b_keys nb) (b_keys b) -> WF (update_case nb b).
Proof.
  intros Wn W I. assert (dkeys (b_true (update_case nb b)) = dkeys (b_true b)) as E.
  { unfold update_case. cbn [b_true]. apply update_keys. intros k Hk. apply (Permutation_in _ (Permutation_sym (wf_true b W))). apply I.
    apply (Permutation_in _ (wf_true nb Wn) Hk). }
  assert (forall k t, In (k, t) (b_true (update_case nb b)) -> lower t = k) as HC.
  { intros k t H. apply (dget_In_NoDup _ str_eqb_spec) in H; [|rewrite E; now apply true_NoDup]. rewrite update_case_dget in H by exact Wn.
    destruct (dget str_eqb k (b_true nb)) as [x|] eqn:D.
    - injection H as ->. apply (wf_case nb Wn). now apply (dget_In _ str_eqb_spec).
    - apply (wf_case b W). now apply (dget_In _ str_eqb_spec). }
  destruct W as [Wk Wl Wt Wc Wp Wr Wnn Wpos]. constructor; auto. rewrite E. exact Wt.
Qed.

(** ** Merging *)
Lemma looped_concat b n : looped_in b n <-> In n (concat (map snd (b_loops b))).
Proof.
  unfold looped_in. rewrite in_concat. split.
  - intros (k & cols & H & Hn). exists cols. split; [|exact Hn]. apply in_map_iff. exists (k, cols). auto.
  - intros (cols & H & Hn). apply in_map_iff in H as ([k c] & E & H). cbn in E. subst c. eauto.
Qed.
Lemma loops_NoDup b : WF b -> NoDup (concat (map snd (b_loops b))).
Proof. intros W. pose proof (printed_NoDup b W) as P. unfold printed_names in P. apply NoDup_app_iff in P. tauto. Qed.
Lemma looped_key b n : WF b -> looped_in b n -> In n (b_keys b).
Proof. intros W H. apply looped_concat in H. apply (printed_In_keys b n W). unfold printed_names. apply in_or_app. now right. Qed.

Lemma after_items keys a nb b1 : WF a -> WF nb -> proper_loops nb -> incl keys (b_keys nb) -> (forall n, looped_in nb n -> In n keys) ->
  items_copied keys nb a b1 ->
  exists b2, copy_loops (b_loops nb) b1 = (b2, Ret tt) /\ WF b2 /\ block_merged (fun n => In n keys) a nb (update_case nb b2)
    /\ (forall n, In n (b_keys (update_case nb b2)) <-> In n (b_keys b2)).
Proof.
  intros W Wn P I Hl [I1 I2 I3 I4 I5 I6 I7 I8 I9].
  destruct (copy_loops_ok (b_loops nb) b1 I1 (loops_NoDup nb Wn)) as (b2 & E & [L1 L2 L3 L4 L5]).
  { intros n Hn. apply (wf_low nb Wn). apply (looped_key nb n Wn). now apply looped_concat. }
  { intros k cols Hc. destruct (P k cols Hc) as (rows & NE & T). split; [exact NE|]. exists rows. intros n Hn.
    destruct (T n Hn) as (_ & l & G & Ln). exists l. split; [|exact Ln].
    assert (looped_in nb n) as Li by (exists k, cols; auto).
    rewrite I6; [exact G|]. rewrite (wf_low nb Wn n (looped_key nb n Wn Li)). now apply Hl. }
  exists b2. split; [exact E|]. split; [exact L1|]. split; [|intros n; reflexivity].
  assert (forall n, get_item n (update_case nb b2) = get_item n b1) as GI.
  { intros n. apply get_item_data. unfold update_case. cbn [b_data]. now rewrite L2. }
  assert (forall n, get_loop_names n (update_case nb b2) = get_loop_names n b2) as GL by reflexivity.
  constructor.
  - intros n Hn Ht. rewrite GI. now apply I6.
  - intros n Hn. rewrite GI. apply I7. intros X. apply Hn. split; [now apply I|exact X].
  - intros n. unfold b_keys, update_case. cbn [b_data]. rewrite L2. fold (b_keys b1). rewrite I8. split; intros [H|H]; auto. destruct H; auto.
  - intros k cols n Hc Hn. rewrite GL. now apply (L4 k cols n).
  - intros n Hn. rewrite GL, L5 by (intros X; apply Hn; now apply looped_concat).
    assert (get_loop_names n b1 = get_loop_names n a) as -> by (unfold get_loop_names, find_loop; now rewrite I2).
    destruct (get_loop_names n a) as [cols|e]; [|reflexivity]. eexists. split; [reflexivity|]. eexists. split; [|reflexivity].
    intros m. rewrite negb_true_iff, (mem_false _ str_eqb_spec), looped_concat. reflexivity.
  - intros n. rewrite update_case_dget by exact Wn. rewrite L3. destruct (dget str_eqb n (b_true nb)) as [t|] eqn:D; [reflexivity|].
    apply I9. intros X. apply (dget_None _ str_eqb_spec) in D. apply D. apply (Permutation_in _ (Permutation_sym (wf_true nb Wn))). now apply I.
Qed.
Lemma merged_ext (P Q : str -> Prop) a nb b' : (forall n, In n (b_keys nb) -> (P n <-> Q n)) -> block_merged P a nb b' -> block_merged Q a nb b'.
Proof.
  intros H [M1 M2 M3 M4 M5 M6]. constructor; auto.
  - intros n Hn Ht. apply M1; [exact Hn|]. now apply H.
  - intros n Hn. apply M2. intros [X1 X2]. apply Hn. split; [exact X1|]. now apply H.
  - intros n. rewrite M3. split; intros [X|[X1 X2]]; auto; right; (split; [exact X1|]); now apply (H n X1).
Qed.
Lemma strict_merge_ok exc nb a b' : WF a -> WF nb -> proper_loops nb -> (forall n, In n exc -> ~ looped_in nb n) ->
  block_merge MStrict exc nb a = (b', Ret tt) ->
  (forall n, In n (b_keys nb) -> In n (b_keys a) -> In n exc) /\ block_merged (fun n => ~ In n exc) a nb b' /\
  ((forall n, In n exc -> In n (b_keys nb) -> In n (b_keys a)) -> WF b').
Proof.
  intros W Wn P X. unfold block_merge, loops_and_case. destruct (strict_items exc (b_keys nb) nb a) as [b1 [[]|]] eqn:E; [|discriminate].
  destruct (strict_items_ok exc (b_keys nb) nb a b1 (wf_keys nb Wn) (wf_low nb Wn) E) as [E1 HD].
  set (keys := filter (fun k => negb (mem str_eqb k exc)) (b_keys nb)) in *.
  assert (forall n, In n keys <-> In n (b_keys nb) /\ ~ In n exc) as HK.
  { intros n. unfold keys. rewrite filter_In, negb_true_iff, (mem_false _ str_eqb_spec). reflexivity. }
  assert (items_copied keys nb a b1) as IC.
  { apply replace_items_ok; [exact W|apply NoDup_filter, (wf_keys nb Wn)| |exact E1]. intros k Hk. apply HK in Hk as [Hk _]. now apply (wf_low nb Wn). }
  destruct (after_items keys a nb b1 W Wn P) as (b2 & E2 & W2 & M & K); [intros n Hn; now apply HK in Hn| |exact IC|].
  { intros n Hn. apply HK. split; [now apply looped_key|]. intros Y. now apply (X n Y). }
  rewrite E2. intros [= <-]. split; [exact HD|]. split.
  - revert M. apply merged_ext. intros n Hn. rewrite HK. tauto.
  - intros Y. apply update_case_wf; [exact Wn|exact W2|]. intros n Hn. apply K. apply (bm_keys _ _ _ _ M).
    destruct (in_dec (fun x y => reflect_dec _ _ (str_eqb_spec x y)) n exc) as [Z|Z]; [left; now apply Y|right]. split; [exact Hn|]. apply HK. auto.
Qed.
Lemma replace_merge_ok exc nb a b' : WF a -> WF nb -> proper_loops nb ->
  block_merge MReplace exc nb a = (b', Ret tt) -> block_merged (fun _ => True) a nb b' /\ WF b'.
Proof.
  intros W Wn P. unfold block_merge, loops_and_case. destruct (replace_items (b_keys nb) nb a) as [b1 [[]|]] eqn:E; [|discriminate].
  pose proof (replace_items_ok (b_keys nb) nb a b1 W (wf_keys nb Wn) (wf_low nb Wn) E) as IC.
  destruct (after_items (b_keys nb) a nb b1 W Wn P) as (b2 & E2 & W2 & M & K); [apply incl_refl|intros n; now apply looped_key|exact IC|].
  rewrite E2. intros [= <-]. split.
  - revert M. apply merged_ext. tauto.
  - apply update_case_wf; [exact Wn|exact W2|]. intros n Hn. apply K. apply (bm_keys _ _ _ _ M). auto.
Qed.
Lemma replace_merge_total exc nb a : WF a -> WF nb -> proper_loops nb -> accepts a nb -> b_over a = true ->
  exists b', block_merge MReplace exc nb a = (b', Ret tt).
Proof.
  intros W Wn P A O. unfold block_merge, loops_and_case. destruct (replace_items_total (b_keys nb) nb a A (incl_refl _) (or_introl O)) as (b1 & E). rewrite E.
  pose proof (replace_items_ok (b_keys nb) nb a b1 W (wf_keys nb Wn) (wf_low nb Wn) E) as IC.
  destruct (after_items (b_keys nb) a nb b1 W Wn P) as (b2 & E2 & _); [apply incl_refl|intros n; now apply looped_key|exact IC|].
  rewrite E2. eauto.
Qed.
Lemma strict_merge_total exc nb a : WF a -> WF nb -> proper_loops nb -> accepts a nb -> (forall n, In n exc -> ~ looped_in nb n) ->
  ((exists n, In n (b_keys nb) /\ In n (b_keys a) /\ ~ In n exc) -> snd (block_merge MStrict exc nb a) = Raise StarErr) /\
  ((forall n, In n (b_keys nb) -> In n (b_keys a) -> In n exc) -> exists b', block_merge MStrict exc nb a = (b', Ret tt)).
Proof.
  intros W Wn P A X. unfold block_merge, loops_and_case.
  destruct (strict_items_total exc (b_keys nb) nb a A (incl_refl _) (wf_keys nb Wn) (wf_low nb Wn)) as [(H & E)|(H & b1 & E)].
  - destruct (strict_items exc (b_keys nb) nb a) as [b1 [|e]]; cbn in E; [discriminate|]. injection E as ->. split; [reflexivity|].
    intros Y. destruct H as (n & H1 & H2 & H3). exfalso. apply H3. now apply Y.
  - rewrite E. split; [intros (n & H1 & H2 & H3); exfalso; apply H3; now apply H|]. intros _.
    destruct (strict_items_ok exc (b_keys nb) nb a b1 (wf_keys nb Wn) (wf_low nb Wn) E) as [E1 HD].
    set (keys := filter (fun k => negb (mem str_eqb k exc)) (b_keys nb)) in *.
    assert (forall n, In n keys <-> In n (b_keys nb) /\ ~ In n exc) as HK.
    { intros n. unfold keys. rewrite filter_In, negb_true_iff, (mem_false _ str_eqb_spec). reflexivity. }
    assert (items_copied keys nb a b1) as IC.
    { apply replace_items_ok; [exact W|apply NoDup_filter, (wf_keys nb Wn)| |exact E1]. intros k Hk. apply HK in Hk as [Hk _]. now apply (wf_low nb Wn). }
    destruct (after_items keys a nb b1 W Wn P) as (b2 & E2 & _); [intros n Hn; now apply HK in Hn| |exact IC|].
    { intros n Hn. apply HK. split; [now apply looped_key|]. intros Y. now apply (X n Y). }
    rewrite E2. eauto.
Qed.
