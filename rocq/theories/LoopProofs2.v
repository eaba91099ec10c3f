(** Proofs about keyed packets, adding and removing rows. *)
From Coq Require Import String Ascii List NArith ZArith Bool Lia Permutation ZifyBool ZifyNat ZifyN.
From Verif Require Import PyBase PyFacts StarBlockModel StarBlockSpec StarBlockProofs StarBlockProofs2
  StarBlockProofs3 StarBlockProofs4 StarBlockProofs5 LoopModel LoopSpec LoopProofs.
Import ListNotations.

Lemma ofilter_total {A} (f : A -> outcome bool) (t : A -> bool) l :
  (forall x, In x l -> f x = Ret (t x)) -> ofilter f l = Ret (filter t l).
Proof.
  induction l as [|x l IH]; intros H; [reflexivity|]. cbn [ofilter filter].
  rewrite (H x (or_introl eq_refl)). cbn [obind]. rewrite IH by (intros y Hy; apply H; now right).
  cbn [obind]. destruct (t x); reflexivity.
Qed.

Lemma filter_single {A} (t : A -> bool) l p :
  filter t l = [p] <->
  exists i, nth_error l i = Some p /\ t p = true /\
            forall j q, nth_error l j = Some q -> t q = true -> j = i.
Proof.
  split.
  - intros H. assert (In p (filter t l)) as Hi by (rewrite H; now left).
    apply filter_In in Hi. destruct Hi as [Hi Ht].
    revert H. induction l as [|x l IH]; [discriminate|]. cbn [filter].
    destruct (t x) eqn:Ex.
    + intros H. injection H as -> H. exists 0%nat. split; [reflexivity|]. split; [exact Ht|].
      intros [|j] q Hq Hqt; [reflexivity|]. cbn in Hq. exfalso.
      apply nth_error_In in Hq. assert (In q (filter t l)) as Hf by (apply filter_In; auto).
      rewrite H in Hf. contradiction.
    + intros H. destruct IH as (i & H1 & H2 & H3).
      * assert (In p (filter t l)) as Hf by (rewrite H; now left). now apply filter_In in Hf.
      * exact H.
      * exists (S i). split; [exact H1|]. split; [exact H2|].
        intros [|j] q Hq Hqt; cbn in Hq; [injection Hq as ->; congruence|]. f_equal. eauto.
  - intros (i & Hi & Ht & Hu). revert i Hi Hu. induction l as [|x l IH]; intros i Hi Hu; [destruct i; discriminate|].
    cbn [filter]. destruct i as [|i]; cbn in Hi.
    + injection Hi as ->. rewrite Ht. f_equal.
      destruct (filter t l) as [|q r] eqn:E; [reflexivity|]. exfalso.
      assert (In q (filter t l)) as Hq by (rewrite E; now left). apply filter_In in Hq. destruct Hq as [Hq Hqt].
      apply In_nth_error in Hq. destruct Hq as [j Hj]. specialize (Hu (S j) q Hj Hqt). discriminate.
    + destruct (t x) eqn:Ex; [specialize (Hu 0%nat x eq_refl Ex); discriminate|].
      apply (IH i Hi). intros j q Hj Hq. specialize (Hu (S j) q Hj Hq). lia.
Qed.

Lemma the_one_spec ps p : the_one ps = Ret p <-> ps = [p].
Proof. destruct ps as [|a [|b r]]; cbn; split; intros H; try discriminate; congruence. Qed.
Lemma the_one_cases ps : (exists p, the_one ps = Ret p) \/ the_one ps = Raise ValueErr.
Proof. destruct ps as [|a [|b r]]; cbn; eauto. Qed.

(** Selecting the only row with a property. *)
Lemma select_spec b names rows ps t (Q : nat -> Prop) :
  length ps = rows -> (forall i p, nth_error ps i = Some p -> is_row b names i p) ->
  (forall i p, nth_error ps i = Some p -> (t p = true <-> Q i)) -> (forall i, Q i -> (i < rows)%nat) ->
  (forall p, the_one (filter t ps) = Ret p <-> exists i, only Q i /\ is_row b names i p) /\
  ((~ exists i, only Q i) -> the_one (filter t ps) = Raise ValueErr).
Proof.
  intros Hlen Hrow Ht Hb.
  assert (forall p, the_one (filter t ps) = Ret p <-> exists i, only Q i /\ is_row b names i p) as H.
  { intros p. rewrite the_one_spec, filter_single. split.
    - intros (i & Hi & Hti & Hu). exists i. split; [|now apply Hrow]. split; [now apply (Ht i p)|].
      intros j Hj. assert (j < length ps)%nat as Hlt by (rewrite Hlen; auto).
      apply nth_error_Some in Hlt. destruct (nth_error ps j) as [q|] eqn:Eq; [|contradiction].
      apply (Hu j q Eq). now apply (Ht j q).
    - intros (i & [Hq Hu] & Hr). assert (i < length ps)%nat as Hlt by (rewrite Hlen; auto).
      apply nth_error_Some in Hlt. destruct (nth_error ps i) as [q|] eqn:Eq; [|contradiction].
      assert (q = p) as -> by (eapply is_row_unique; eauto).
      exists i. split; [exact Eq|]. split; [now apply (Ht i p)|].
      intros j q Hj Hqt. apply Hu. now apply (Ht j q). }
  split; [exact H|]. intros Hno. destruct (the_one_cases (filter t ps)) as [[p Hp]|Hp]; [|exact Hp].
  apply H in Hp. destruct Hp as (i & Hi & _). exfalso. eauto.
Qed.

Lemma table_key b names rows key : is_table b names rows -> get_loop_names key b = Ret names -> WF b -> In (lower key) names.
Proof. intros Ht Hk Hwf. apply get_loop_names_In in Hk; [|exact Hwf]. now destruct Hk as (k & _ & H & _). Qed.

Lemma cell_lower b names rows key i v : is_table b names rows -> In (lower key) names ->
  (cell b key i v <-> cell b (lower key) i v).
Proof.
  intros [_ Ht] Hi. destruct (Ht (lower key) Hi) as [_ (l & E & _)].
  assert (get_item key b = get_item (lower key) b) as Eq.
  { rewrite get_full_entry in E. destruct (str_eqb_spec (lower key) (u "saves")) as [|Hn]; [discriminate|].
    apply get_item_ext; [now rewrite lower_idem| |exact Hn].
    intros ->. apply Hn. reflexivity. }
  unfold cell. now rewrite Eq.
Qed.
Lemma cell_fun b n i v w : cell b n i v -> cell b n i w -> v = w.
Proof. intros (l & E & H) (l' & E' & H'). congruence. Qed.
Lemma cell_bound b names rows n i v : is_table b names rows -> In n names -> cell b n i v -> (i < rows)%nat.
Proof.
  intros [_ Ht] Hn (l & E & H). destruct (Ht n Hn) as [_ (l' & E' & Hl)].
  assert (l = l') as -> by congruence. rewrite <- Hl. apply nth_error_Some. congruence.
Qed.

Lemma row_test b names rows key i p (P : value -> Prop) (t : value -> bool) :
  WF b -> is_table b names rows -> is_row b names i p -> In (lower key) names ->
  (forall v, t v = true <-> P v) ->
  exists v, p_attr key p = Ret v /\ cell b key i v /\ (t v = true <-> row_matches b key P i).
Proof.
  intros Hwf Ht Hr Hk HP. destruct (row_attr b names i p key rows Hwf Ht Hr Hk) as (v & E & Hc).
  rewrite <- (cell_lower b names rows key i v Ht Hk) in Hc.
  exists v. split; [exact E|]. split; [exact Hc|]. rewrite HP. split.
  - intros H. exists v. now split.
  - intros (w & Hw & H). now rewrite (cell_fun _ _ _ _ _ Hc Hw).
Qed.

Lemma keyed_spec b key names rows kv : WF b -> get_loop_names key b = Ret names -> is_table b names rows ->
  let Q := row_matches b key (fun v => same_value v kv) in
  (forall p, get_keyed_packet key kv false b = Ret p <-> exists i, only Q i /\ is_row b names i p) /\
  ((~ exists i, only Q i) -> get_keyed_packet key kv false b = Raise ValueErr).
Proof.
  intros Hwf Hk Ht Q. destruct (packets_spec b key names rows Hwf Hk Ht) as (ps & E & Hlen & Hrow).
  pose proof (table_key _ _ _ _ Ht Hk Hwf) as Hin.
  unfold get_keyed_packet. rewrite E. cbn [obind].
  set (t := fun p => match p_attr key p with Ret v => py_eq v kv | Raise _ => false end).
  assert (forall i p, nth_error ps i = Some p -> exists v, p_attr key p = Ret v /\ cell b key i v /\ (py_eq v kv = true <-> Q i)) as Hrt.
  { intros i p Hp. apply (row_test b names rows key i p (fun v => same_value v kv) (fun v => py_eq v kv)); auto.
    intros v. apply py_eq_spec. }
  rewrite (ofilter_total _ t).
  2:{ intros p Hp. apply In_nth_error in Hp. destruct Hp as [i Hp]. destruct (Hrt i p Hp) as (v & Ev & _).
      unfold t. rewrite Ev. reflexivity. }
  cbn [obind]. apply (select_spec b names rows ps t Q Hlen Hrow).
  - intros i p Hp. destruct (Hrt i p Hp) as (v & Ev & _ & Hq). unfold t. rewrite Ev. exact Hq.
  - intros i (v & Hc & _). rewrite (cell_lower b names rows key i v Ht Hin) in Hc. eapply cell_bound; eauto.
Qed.

(** Ignoring case, on columns of texts. *)
Lemma keyed_nocase_spec b key names rows s : WF b -> get_loop_names key b = Ret names -> is_table b names rows ->
  (forall i v, cell b key i v -> exists x, v = VStr x) ->
  let Q := row_matches b key (fun v => same_text_nocase v (VStr s)) in
  (forall p, get_keyed_packet key (VStr s) true b = Ret p <-> exists i, only Q i /\ is_row b names i p) /\
  ((~ exists i, only Q i) -> get_keyed_packet key (VStr s) true b = Raise ValueErr).
Proof.
  intros Hwf Hk Ht Htext Q. destruct (packets_spec b key names rows Hwf Hk Ht) as (ps & E & Hlen & Hrow).
  pose proof (table_key _ _ _ _ Ht Hk Hwf) as Hin.
  unfold get_keyed_packet. rewrite E. cbn [obind].
  set (tv := fun v => match v with VStr x => str_eqb (lower x) (lower s) | _ => false end).
  set (t := fun p => match p_attr key p with Ret v => tv v | Raise _ => false end).
  assert (forall i p, nth_error ps i = Some p -> exists v, p_attr key p = Ret v /\ cell b key i v /\ (tv v = true <-> Q i)) as Hrt.
  { intros i p Hp. apply (row_test b names rows key i p (fun v => same_text_nocase v (VStr s)) tv); auto.
    intros v. unfold tv. split.
    - destruct v as [x| | | | |]; try discriminate. destruct (str_eqb_spec (lower x) (lower s)) as [He|]; [|discriminate].
      intros _. exists x, s. auto.
    - intros (x & y & -> & Hy & He). injection Hy as <-. change (lower x = lower s) in He. rewrite He. apply str_eqb_refl. }
  rewrite (ofilter_total _ t).
  2:{ intros p Hp. apply In_nth_error in Hp. destruct Hp as [i Hp]. destruct (Hrt i p Hp) as (v & Ev & Hc & _).
      destruct (Htext i v Hc) as [x ->]. unfold t. rewrite Ev. reflexivity. }
  cbn [obind]. apply (select_spec b names rows ps t Q Hlen Hrow).
  - intros i p Hp. destruct (Hrt i p Hp) as (v & Ev & _ & Hq). unfold t. rewrite Ev. exact Hq.
  - intros i (v & Hc & _). rewrite (cell_lower b names rows key i v Ht Hin) in Hc. eapply cell_bound; eauto.
Qed.

(** Compound keys. *)
Definition key_ok (repr : value -> str) (kv : value * bool) (v : value) : bool :=
  if snd kv then str_eqb (lower (py_str repr v)) (lower (py_str repr (fst kv))) else py_eq v (fst kv).
Lemma key_ok_spec repr kv v : key_ok repr kv v = true <-> key_holds repr kv v.
Proof.
  unfold key_ok, key_holds. destruct (snd kv); [|apply py_eq_spec].
  change (printed repr) with (py_str repr). fold (lower (py_str repr v)). fold (lower (py_str repr (fst kv))).
  destruct (str_eqb_spec (lower (py_str repr v)) (lower (py_str repr (fst kv)))) as [H|H]; split; intros H2; try discriminate; try contradiction; auto.
Qed.
Lemma narrow_spec repr keys : forall rows (t : str * (value * bool) -> packet -> bool),
  (forall k p, In k keys -> In p rows -> key_test repr k p = Ret (t k p)) ->
  narrow repr keys rows = Ret (filter (fun p => forallb (fun k => t k p) keys) rows).
Proof.
  induction keys as [|k keys IH]; intros rows t H; cbn [narrow].
  - f_equal. symmetry. apply filter_all. reflexivity.
  - rewrite (ofilter_total _ (t k)) by (intros p Hp; apply H; [now left|exact Hp]). cbn [obind].
    rewrite (IH _ t) by (intros k' p Hk Hp; apply H; [now right|apply filter_In in Hp; now destruct Hp]).
    f_equal. rewrite filter_filter'. apply filter_ext. intros p. reflexivity.
Qed.

Lemma compound_spec repr b keys names rows : WF b -> keys <> [] -> is_table b names rows ->
  (forall k kv, In (k, kv) keys -> In (lower k) names) ->
  let Q := fun i => forall k kv, In (k, kv) keys -> row_matches b k (key_holds repr kv) i in
  (forall p, get_compound_packet repr keys b = Ret p <-> exists i, only Q i /\ is_row b names i p) /\
  ((~ exists i, only Q i) -> get_compound_packet repr keys b = Raise ValueErr).
Proof.
  intros Hwf Hne Ht Hkeys Q.
  assert (forall k, In (lower k) names -> get_loop_names k b = Ret names) as Hnames.
  { intros k Hk. destruct Ht as [_ Ht]. destruct (Ht _ Hk) as [H _].
    rewrite <- H. apply get_loop_names_ext. now rewrite lower_idem. }
  destruct keys as [|[k0 kv0] keys]; [contradiction|]. set (K := (k0, kv0) :: keys) in *.
  assert (In (lower k0) names) as Hk0 by (apply (Hkeys k0 kv0); now left).
  destruct (packets_spec b k0 names rows Hwf (Hnames k0 Hk0) Ht) as (ps & E & Hlen & Hrow).
  unfold get_compound_packet, K. fold K. rewrite E. cbn [obind].
  set (t := fun (k : str * (value * bool)) p => match p_attr (fst k) p with Ret v => key_ok repr (snd k) v | Raise _ => false end).
  assert (forall k kv i p, In (k, kv) K -> nth_error ps i = Some p ->
           exists v, p_attr k p = Ret v /\ cell b k i v /\ (key_ok repr kv v = true <-> row_matches b k (key_holds repr kv) i)) as Hrt.
  { intros k kv i p Hk Hp. apply (row_test b names rows k i p (key_holds repr kv) (key_ok repr kv)); auto.
    - now apply (Hkeys k kv).
    - intros v. apply key_ok_spec. }
  rewrite (narrow_spec repr K ps t).
  2:{ intros [k kv] p Hk Hp. apply In_nth_error in Hp. destruct Hp as [i Hp].
      destruct (Hrt k kv i p Hk Hp) as (v & Ev & _). unfold key_test, t. cbn [fst snd]. rewrite Ev. cbn [obind].
      unfold key_ok. destruct (snd kv); reflexivity. }
  cbn [obind]. apply (select_spec b names rows ps _ Q Hlen Hrow).
  - intros i p Hp. rewrite forallb_forall. split.
    + intros H k kv Hk. destruct (Hrt k kv i p Hk Hp) as (v & Ev & _ & Hq). apply Hq.
      specialize (H (k, kv) Hk). unfold t in H. cbn [fst snd] in H. now rewrite Ev in H.
    + intros H [k kv] Hk. destruct (Hrt k kv i p Hk Hp) as (v & Ev & _ & Hq). unfold t. cbn [fst snd]. rewrite Ev.
      apply Hq. now apply H.
  - intros i Hq. destruct (Hq k0 kv0 (or_introl eq_refl)) as (v & Hc & _).
    rewrite (cell_lower b names rows k0 i v Ht Hk0) in Hc. eapply cell_bound; eauto.
Qed.

Lemma compound_perm repr b keys keys' names rows : WF b -> keys <> [] -> is_table b names rows ->
  (forall k kv, In (k, kv) keys -> In (lower k) names) -> Permutation keys keys' ->
  get_compound_packet repr keys b = get_compound_packet repr keys' b.
Proof.
  intros Hwf Hne Ht Hk Hp.
  assert (keys' <> []) as Hne'.
  { intros ->. apply Hne. apply Permutation_sym in Hp. now apply Permutation_nil in Hp. }
  assert (forall k kv, In (k, kv) keys' -> In (lower k) names) as Hk'.
  { intros k kv H. apply (Hk k kv). now apply (Permutation_in _ (Permutation_sym Hp)). }
  destruct (compound_spec repr b keys names rows Hwf Hne Ht Hk) as [H1 H2].
  destruct (compound_spec repr b keys' names rows Hwf Hne' Ht Hk') as [H1' H2'].
  cbv zeta in *.
  set (Q := fun i => forall k kv, In (k, kv) keys -> row_matches b k (key_holds repr kv) i) in *.
  set (Q' := fun i => forall k kv, In (k, kv) keys' -> row_matches b k (key_holds repr kv) i) in *.
  assert (forall i, Q i <-> Q' i) as HQ.
  { intros i. split; intros H k kv Hi; apply H; [now apply (Permutation_in _ (Permutation_sym Hp))|now apply (Permutation_in _ Hp)]. }
  assert (forall i, only Q i <-> only Q' i) as HO.
  { intros i. unfold only. split; intros [A B]; split; try (now apply HQ); intros j Hj; apply B; now apply HQ. }
  destruct (get_compound_packet repr keys b) as [p|e] eqn:E.
  - symmetry. apply H1'. destruct (proj1 (H1 p) eq_refl) as (i & Hi & Hr). exists i. split; [now apply HO|exact Hr].
  - assert (~ exists i, only Q i) as Hno.
    { intros [i Hi]. 
      assert (exists p, is_row b names i p) as [p Hr].
      { destruct Hi as [Hq _]. destruct keys as [|[k0 kv0] keys0]; [contradiction|].
        destruct (Hq k0 kv0 (or_introl eq_refl)) as (v & Hc & _).
        assert (In (lower k0) names) as Hk0 by (apply (Hk k0 kv0); now left).
        rewrite (cell_lower b names rows k0 i v Ht Hk0) in Hc. pose proof (cell_bound _ _ _ _ _ _ Ht Hk0 Hc) as Hb.
        destruct (packets_spec b (lower k0) names rows Hwf) as (ps & _ & Hlen & Hrow); auto.
        - destruct Ht as [_ Ht]. now apply Ht.
        - rewrite <- Hlen in Hb. apply nth_error_Some in Hb. destruct (nth_error ps i) as [p|] eqn:Ep; [|contradiction]. eauto. }
      assert (Raise e = Ret p) as Hx by (apply H1; exists i; auto). discriminate. }
    rewrite (H2 Hno). symmetry. apply H2'. intros [i Hi]. apply Hno. exists i. now apply HO.
Qed.
