(** Printing and reading whole blocks and files. *)
From Coq Require Import String Ascii List NArith ZArith Bool Lia ZifyBool ZifyN ZifyNat Permutation.
From Verif Require Import PyBase PyFacts RegexModel FoldModel StarBlockModel LoopModel ScanModel FormatModel ReadModel WriteModel ParseModel
  FoldSpec StarBlockSpec LoopSpec ReadSpec ScanSpec FormatSpec WriteSpec ParseSpec StarBlockProofs StarBlockProofs3 StarBlockProofs4 LoopProofs ReadProofs ReadProofs2
  TextProofs ScanProofs2 ScanProofs4 FormatProofs3 WriteProofs WriteProofs2 WriteProofs3 WriteProofs4 ParseProofs ParseProofs2 ParseProofs3 ParseProofs4.
Import ListNotations.
Open Scope nat_scope.

Lemma full_order_nil b : full_order [] b = Ret ([], b_order b, b).
Proof.
  unfold full_order. cbn [requested_order map filter ordering_go obind fst snd].
  do 2 f_equal. f_equal. apply (filter_all (fun i => negb (mem oitem_eqb i []))). reflexivity.
Qed.
Lemma writable_prints g maxout mx nm b es : readable_heading g nm -> writable g maxout mx b es ->
  exists out, print_block g maxout [] b = Ret out /\ printed_block g maxout (nm, es, out).
Proof.
  intros Hn (W & HF & HR & _).
  destruct (block_print g maxout [] b b [] (b_order b) es (full_order_nil b) HF) as (out & pss & E & HS & HL).
  { eapply Forall_impl; [|exact HR]. intros e. apply round_distinct. }
  exists out. split; [exact E|]. split; [exact Hn|]. exists pss. split; [|exact HL].
  clear -HS HR. induction HS as [|e ps es pss H HS IH]; constructor.
  - inversion HR; subst. eapply round_entry; eauto.
  - apply IH. now inversion HR.
Qed.
Lemma shows_places b b' o o' es : Forall2 (shows b) o es -> Forall2 (shows b') o' (map canon_item es) -> Forall2 (same_place b b') o o'.
Proof.
  intros HF. revert o'. induction HF as [|it e o es H HF IH]; intros o' HF'; cbn [map] in HF'; inversion HF'; subst; constructor; auto.
  destruct it as [n|k], e as [t v|ts vs]; cbn [shows] in H; try contradiction;
    match goal with X : shows b' ?y _ |- _ => destruct y as [m|k2]; cbn [shows canon_item] in X; try contradiction end.
  - destruct H as [-> _]. symmetry. tauto.
  - exists (map lower ts). tauto.
Qed.
Lemma writable_reads g maxout mx un b es : writable g maxout mx b es ->
  exists bl, read_block (plain_items (read_of es)) (empty_block false mx un) = (bl, Ret tt) /\ WF bl /\
    same_read b bl /\ Forall2 (same_place b bl) (b_order b) (b_order bl).
Proof.
  intros (W & HF & HR & Hfit).
  destruct (entries_read g maxout [] b (b_order b) es mx un W (Permutation_refl _) HF HR Hfit) as (bl & E & W' & HF').
  exists bl. split; [exact E|]. split; [exact W'|]. split; [|eapply shows_places; eauto].
  apply (shows_read b bl es W W' HF HF').
  apply Forall_forall. intros t Hi. unfold all_names in Hi. apply in_flat_map in Hi. destruct Hi as (e & He & Hi).
  rewrite Forall_forall in HR. destruct (HR e He) as [_ Hl]. destruct e as [t' v|ts vs]; cbn [legible_entry item_names] in *.
  - destruct Hi as [<-|[]]. destruct Hl as [(r & -> & _) _]. exists r. reflexivity.
  - destruct Hl as (_ & _ & Hn & _). rewrite Forall_forall in Hn. destruct (Hn t Hi) as (r & -> & _). exists r. reflexivity.
Qed.

Lemma file_round g maxout mx un (bs : list (str * block)) :
  Forall (fun nb => readable_heading g (fst nb) /\ exists es, writable g maxout mx (snd nb) es) bs ->
  exists outs ds, Forall2 (fun nb o => fst o = fst nb /\ print_block g maxout [] (snd nb) = Ret (snd o)) bs outs
   /\ parse_file g (file_text outs) = Ret ds
   /\ Forall2 (fun nb d => d_name d = fst nb /\ exists b', read_block (plain_items (d_contents d)) (empty_block false mx un) = (b', Ret tt)
        /\ WF b' /\ same_read (snd nb) b' /\ Forall2 (same_place (snd nb) b') (b_order (snd nb)) (b_order b')) bs ds.
Proof.
  intros HB.
  assert (exists xs, Forall (printed_block g maxout) xs /\
    Forall2 (fun nb x => match x with (nm, es, out) => nm = fst nb /\ print_block g maxout [] (snd nb) = Ret out /\ writable g maxout mx (snd nb) es end) bs xs) as (xs & HX & HF).
  { induction HB as [|[nm b] bs [Hn [es Hw]] HB IH]; [exists []; split; constructor|]. destruct IH as (xs & H1 & H2).
    destruct (writable_prints g maxout mx nm b es Hn Hw) as (out & E & Hp). exists ((nm, es, out) :: xs). split; constructor; auto. }
  exists (map (fun x => match x with (nm, _, out) => (nm, out) end) xs), (map (fun x => match x with (nm, es, _) => DBlock nm (read_of es) end) xs).
  split; [|split].
  - clear -HF. induction HF as [|nb [[nm es] out] bs xs H HF IH]; cbn [map]; constructor; auto. cbn [fst snd]. tauto.
  - unfold parse_file. change (file_text _) with (text_of xs). rewrite (blocks_parse g maxout xs HX [] _ _ []); [reflexivity| |constructor|now left].
    clear. induction xs as [|[[nm es] out] xs IH]; [apply Nat.le_0_l|]. rewrite text_cons. cbn [length]. rewrite !app_length. cbn [length]. rewrite app_length. lia.
  - clear -HF. induction HF as [|nb [[nm es] out] bs xs H HF IH]; cbn [map]; constructor; auto. cbn [d_name d_contents]. destruct H as (-> & _ & Hw).
    split; [reflexivity|]. now apply (writable_reads g maxout mx un).
Qed.

(** ** Blocks as a whole *)
Lemma last_nth {A} (l : list A) x : nth_error (l ++ [x]) (length (l ++ [x]) - 1) = Some x.
Proof. rewrite app_length. cbn. rewrite Nat.add_sub. rewrite nth_error_app2 by lia. now rewrite Nat.sub_diag. Qed.
Lemma cell_spelled b n i v : cell b n i v -> n <> u "saves" -> lower n <> u "saves" -> cell b (lower n) i v.
Proof. intros (l & G & H) H1 H2. exists l. split; [|exact H]. rewrite <- G. apply get_item_ext; [now rewrite lower_idem|exact H2|exact H1]. Qed.
Lemma hinted_block_shows g maxout mx hs b : hinted_block g maxout mx hs b ->
  exists es, Forall2 (shows b) (b_order b) es /\ Forall (round_trips g maxout hs) es /\ names_fit mx es.
Proof.
  intros (W & Hn & Hk & Hl).
  destruct (block_shows b W) as [es HF].
  - intros n Hi. destruct (get_loop_names n b) as [cols|e] eqn:E.
    + apply (get_loop_names_In _ _ _ W) in E. destruct E as (k & E1 & E2 & _).
      destruct (Hl k cols E1) as (R & _ & HT & _). destruct (proj2 HT (lower n) E2) as (_ & l & G & _). exists (VList l).
      apply get_item_spelled. exact G.
    + assert (e = KeyErr) as ->. { unfold get_loop_names in E. destruct (find_loop n b); [|congruence]. destruct (dget Z.eqb z (b_loops b)); congruence. }
      destruct (Hk n Hi E) as (s & G & _). eauto.
  - intros k cols Hi. destruct (Hl k cols Hi) as (R & _ & HT & _). eauto.
  - exists es.
    assert (Forall (fun e => (exists it, In it (b_order b) /\ shows b it e)) es) as HS by (apply Forall_forall; intros e He; eapply shows_get; eauto).
    assert (Forall (round_trips g maxout hs) es) as HR.
    { eapply Forall_impl; [|exact HS]. intros e (it & Hi & H). destruct it as [n|k], e as [t v|ts vs]; cbn [shows] in H; try contradiction.
      - destruct H as (-> & Et & G & GL). destruct (Hn _ _ Et) as [Hrn _].
        assert (In (lower t) (b_keys b)) as Hkey.
        { apply (printed_In_keys b _ W). apply in_or_app; left; apply in_flat_map; exists (ON (lower t)); split; [exact Hi|now left]. }
        assert (get_loop_names (lower t) b = Raise KeyErr) as GL' by (rewrite <- GL; apply get_loop_names_ext; now rewrite lower_idem).
        destruct (Hk _ Hkey GL') as (v' & G' & Hc & Hd). apply get_item_spelled in G'. assert (v = v') as <- by congruence.
        split.
        + cbn [separated]. destruct v; auto. rewrite lower_length in Hd. exact Hd.
        + cbn [legible_entry]. split; [exact Hrn|]. exact Hc.
      - destruct H as (Hd & Ht & HT). destruct HT as [HT HC]. pose proof (dget_In _ Z.eqb_spec _ _ _ Hd) as Hin.
        destruct (Hl k _ Hin) as (R & HR0 & HT' & Hcell & Hsep & Hlast).
        assert (ts <> []) as Hts. { destruct HT as [X _]. now destruct ts. }
        assert (length ts <> 0) as Hlt by now destruct ts.
        assert (Forall (readable_name g) ts) as Hrn by (eapply Forall_impl; [|exact Ht]; intros t Et; now apply (Hn _ _ Et)).
        assert (forall j t, nth_error ts j = Some t -> forall i v, nth_error vs (j + i * length ts) = Some v -> cell b (lower t) i v) as HC'.
        { intros j t Ej i v Ev. destruct (proj2 (HC _ t Ej i v) Ev) as (l & G & Hnth). exists l. split; [|exact Hnth].
          destruct (proj2 HT' (lower t) (in_map lower _ _ (nth_error_In _ _ Ej))) as (_ & l' & G' & _).
          pose proof (get_item_spelled _ _ _ G') as G''. congruence. }
        assert (forall p v, nth_error vs p = Some v -> exists t, In t ts /\ cell b (lower t) (p / length ts) v) as Hall.
        { intros p v Ep. pose proof (Nat.div_mod p (length ts) Hlt) as Hdm. pose proof (Nat.mod_upper_bound p (length ts) Hlt) as Hmb.
          destruct (nth_error ts (p mod length ts)) as [t|] eqn:Ej; [|apply nth_error_None in Ej; lia].
          exists t. split; [eapply nth_error_In; eauto|]. apply (HC' _ t Ej). rewrite <- Ep. f_equal. lia. }
        assert (R = length vs / length ts) as HRv.
        { destruct ts as [|t ts]; [congruence|]. destruct HT as [_ HT]. destruct (HT (lower t)) as (_ & l & G & Hlen); [now left|].
          destruct HT' as [_ HT']. destruct (HT' (lower t)) as (_ & l' & G' & Hlen'); [now left|]. rewrite G in G'. injection G' as <-. congruence. }
        assert (vs <> []) as Hvs. { intros ->. rewrite HRv in HR0. cbn [length] in HR0. rewrite Nat.div_0_l in HR0 by exact Hlt. lia. }
        assert (length vs = R * length ts) as Hlv.
        { destruct (rows_of_table b ts vs (conj HT HC)) as (cs & rows & _ & _ & _ & Hcr & HRl). apply concat_length_rows in HRl. rewrite Hcr in HRl.
          rewrite HRv, HRl, Nat.div_mul by exact Hlt. reflexivity. }
        split.
        + cbn [separated]. destruct Hsep as [[Hcol Hsep]|Hsep].
          * left. split; [|intros t Hti; apply Hcol; now apply in_map]. apply Forall_forall. intros v Hi'. apply In_nth_error in Hi'. destruct Hi' as [p Ep].
            destruct (Hall p v Ep) as (t & Ht1 & Ht2). apply (Hsep (lower t) (p / length ts) v); [now apply in_map|exact Ht2].
          * right. intros i j v w Hj Hv Hw.
            destruct (nth_error ts j) as [t|] eqn:Ej; [|apply nth_error_None in Ej; lia]. destruct (nth_error ts (S j)) as [t2|] eqn:Ej2; [|apply nth_error_None in Ej2; lia].
            apply (Hsep j (lower t) (lower t2) i v w); [now rewrite nth_error_map, Ej|now rewrite nth_error_map, Ej2|now apply (HC' j)|now apply (HC' (S j))].
        + cbn [legible_entry]. split; [exact Hts|]. split; [exact Hvs|]. split; [exact Hrn|]. split.
          { apply Forall_forall. intros v Hi' req Hreq. apply In_nth_error in Hi'. destruct Hi' as [p Ep].
            destruct (Hall p v Ep) as (t & Ht1 & Ht2). apply (Hcell (lower t) (p / length ts) v); [now apply in_map|exact Ht2|exact Hreq]. }
          intros vs0 E. destruct (exists_last Hvs) as (vs1 & x & E1).
          assert (canon x = VSL []) as Hx. { rewrite E1, map_app in E. cbn [map] in E. apply app_inj_tail in E. tauto. }
          assert (nth_error vs (length vs - 1) = Some x) as Ex by (rewrite E1; apply last_nth).
          destruct (nth_error ts (length ts - 1)) as [t|] eqn:Ej; [|apply nth_error_None in Ej; lia].
          destruct (Hlast (lower t) x) as [L1 L2].
          { rewrite map_length, nth_error_map, Ej. reflexivity. }
          { apply (HC' _ t Ej). rewrite <- Ex. f_equal. rewrite Hlv. clear -HR0 Hlt. destruct R; [lia|]. cbn [Nat.sub Nat.mul]. rewrite Nat.sub_0_r. lia. }
          destruct x as [s|s| |l|l|d]; cbn [canon] in Hx; try discriminate; destruct l; try discriminate; congruence. }
    split; [exact HF|]. split; [exact HR|].
    intros Hm t Hi. unfold all_names in Hi. apply in_flat_map in Hi. destruct Hi as (e & He & Hi). rewrite Forall_forall in HS. destruct (HS e He) as (it & _ & H).
    destruct it as [n|k], e as [t' v|ts vs]; cbn [shows item_names] in H, Hi; try contradiction.
    * destruct Hi as [<-|[]]. destruct H as (_ & Et & _). now apply (Hn _ _ Et).
    * destruct H as (_ & Ht & _). rewrite Forall_forall in Ht. now apply (Hn _ _ (Ht t Hi)).
Qed.
Lemma good_block_writable g maxout mx b : good_block g maxout mx b -> exists es, writable g maxout mx b es.
Proof.
  intros (W & Hn & Hk & Hl). destruct (hinted_block_shows g maxout mx [] b) as (es & H).
  - split; [exact W|]. split; [exact Hn|]. split.
    + intros n Hi E. destruct (Hk n Hi E) as (v & G & Hc & Hd). exists v. split; [exact G|]. split; [intros req [<-|[]]; exact Hc|].
      destruct v; auto. split; [exact Hd|exact I].
    + intros k cols Hi. destruct (Hl k cols Hi) as (R & HR0 & HT & Hc & Hs & He). exists R. split; [exact HR0|]. split; [exact HT|].
      split; [intros n i v H1 H2 req [<-|[]]; now apply (Hc n i v)|]. split; [|exact He]. destruct Hs as [Hs|Hs]; [left|right; exact Hs].
      split; [discriminate|exact Hs].
  - exists es. split; [exact W|exact H].
Qed.
Lemma hinted_text_hinted g maxout mx hs b : hinted_text_block g maxout mx hs b -> hinted_block g maxout mx hs b.
Proof.
  intros (W & Hn & Hk & Hl). split; [exact W|]. split; [exact Hn|]. split.
  - intros n Hi E. destruct (Hk n Hi E) as (s & G & Hc). exists (VStr s). split; [exact G|]. split; [|exact I].
    intros req Hr. constructor. intros f. now apply Hc.
  - intros k cols Hi. destruct (Hl k cols Hi) as (R & HR & HT & Hcol & Hc). exists R. split; [exact HR|]. split; [exact HT|]. split; [|split].
    + intros n i v Hin Hcell req Hr. destruct (Hc n i v Hin Hcell) as (s & -> & H). constructor. intros f. now apply H.
    + left. split; [exact Hcol|]. intros n i v Hin Hcell. destruct (Hc n i v Hin Hcell) as (s & -> & H). reflexivity.
    + intros n v Hin Hcell. destruct (Hc n _ v (nth_error_In _ _ Hin) Hcell) as (s & -> & H). split; discriminate.
Qed.
Lemma text_block_good g maxout mx b : text_block g maxout mx b -> good_block g maxout mx b.
Proof.
  intros (W & Hn & Hk & Hl). split; [exact W|]. split; [exact Hn|]. split.
  - intros n Hi E. destruct (Hk n Hi E) as (s & G & Hc). exists (VStr s). split; [exact G|]. split; [now constructor|exact I].
  - intros k cols Hi. destruct (Hl k cols Hi) as (R & HR & HT & Hc). exists R. split; [exact HR|]. split; [exact HT|]. split; [|split].
    + intros n i v Hin Hcell. destruct (Hc n i v Hin Hcell) as (s & -> & H). now constructor.
    + left. intros n i v Hin Hcell. destruct (Hc n i v Hin Hcell) as (s & -> & H). reflexivity.
    + intros n v Hin Hcell. destruct (Hc n _ v (nth_error_In _ _ Hin) Hcell) as (s & -> & H). split; discriminate.
Qed.
Lemma same_read_texts g maxout mx b b' : text_block g maxout mx b -> same_read b b' -> same_contents b' b.
Proof.
  intros (W & Hn & Hk & Hl) H n. destruct (H n) as (H1 & H2 & H3). split; [|now split]. rewrite H3.
  destruct (get_item n b) as [v|e] eqn:G; [|reflexivity]. f_equal.
  destruct (get_loop_names n b) as [cols|e] eqn:E; cbn [is_ret read_back].
  - apply (get_loop_names_In _ _ _ W) in E. destruct E as (k & E1 & E2 & _). destruct (Hl k cols E1) as (R & _ & HT & Hc).
    destruct (proj2 HT (lower n) E2) as (_ & l & G' & _). pose proof (get_item_spelled _ _ _ G') as G''. assert (v = VList l) as -> by congruence.
    f_equal. rewrite <- (map_id l) at 2. apply map_ext_in. intros x Hi. apply In_nth_error in Hi. destruct Hi as [i Ei].
    destruct (Hc (lower n) i x E2) as (s & -> & _); [exists l; auto|]. reflexivity.
  - assert (e = KeyErr) as ->. { unfold get_loop_names in E. destruct (find_loop n b); [|congruence]. destruct (dget Z.eqb z (b_loops b)); congruence. }
    assert (In (lower n) (b_keys b)) as Hkey by (apply has_key_In; now apply (get_item_key n b v)).
    destruct (Hk (lower n) Hkey) as (s & G' & _).
    { rewrite <- E. apply get_loop_names_ext. now rewrite lower_idem. }
    apply get_item_spelled in G'. assert (v = VStr s) as -> by congruence. reflexivity.
Qed.
