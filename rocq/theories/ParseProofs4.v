(** From blocks to file text and back. *)
From Coq Require Import String Ascii List NArith ZArith Bool Lia ZifyBool ZifyN ZifyNat Permutation.
From Verif Require Import PyBase PyFacts RegexModel FoldModel StarBlockModel LoopModel ScanModel FormatModel ReadModel WriteModel ParseModel
  FoldSpec StarBlockSpec LoopSpec ReadSpec ScanSpec FormatSpec WriteSpec ParseSpec StarBlockProofs StarBlockProofs3 StarBlockProofs4 LoopProofs ReadProofs ReadProofs2
  TextProofs ScanProofs2 ScanProofs4 FormatProofs3 WriteProofs WriteProofs2 WriteProofs3 WriteProofs4 ParseProofs ParseProofs2 ParseProofs3.
Import ListNotations.
Open Scope nat_scope.

(** ** Conditions *)
Lemma name_char_not_blank g c : name_char g c = true -> ~ In c [32; 10; 9; 13]%N.
Proof.
  intros H [<-|[<-|[<-|[<-|[]]]]]; destruct g; vm_compute in H; discriminate.
Qed.
Lemma readable_good g t : readable_name g t -> good_name t.
Proof.
  intros (r & -> & _ & Hr). split; [exists r; reflexivity|]. intros c [<-|Hc]; [cbn; intuition discriminate|].
  rewrite Forall_forall in Hr. intros X. apply (name_char_not_blank g c (Hr c Hc)). cbn in X |- *. tauto.
Qed.
Lemma legible_textual g maxout v : forall b req, legible g maxout b req v -> textual v.
Proof.
  induction v as [s|s| |l IH|l IH|d IH] using value_rect'; intros b req H; inversion H; subst; constructor.
  - rewrite Forall_forall in IH. match goal with X : Forall _ l |- _ => revert X end. rewrite !Forall_forall. eauto.
  - rewrite Forall_forall in IH. match goal with X : Forall _ l |- _ => revert X end. rewrite !Forall_forall. eauto.
  - rewrite Forall_forall in IH. match goal with X : Forall _ d |- _ => revert X end. rewrite !Forall_forall. intros X kv Hi. exact (IH kv Hi _ _ (proj2 (X kv Hi))).
Qed.
Lemma asked_first hs : In None (asked hs).
Proof. now left. Qed.
Lemma adjacent_alternating row : (forall j v w, nth_error row j = Some v -> nth_error row (S j) = Some w -> compound v = true \/ compound w = true) ->
  forall prev, (prev = true -> forall v, nth_error row 0 = Some v -> compound v = true) -> alternating prev row.
Proof.
  induction row as [|v row IH]; intros H prev Hp; [exact I|]. cbn [alternating]. split; [intros E; now apply (Hp E v)|].
  apply IH; [intros j x y; exact (H (S j) x y)|]. intros E w Hw. destruct (H 0 v w eq_refl Hw) as [X|X]; [rewrite X in E; discriminate|exact X].
Qed.
Lemma round_distinct g maxout hs e : round_trips g maxout hs e -> distinct hs e.
Proof.
  intros [Hs Hl]. destruct e as [t v|ts vs]; cbn [separated legible_entry distinct] in *.
  - destruct Hl as [Hn Hv]. split; [now apply (readable_good g)|]. split; [exact (legible_textual _ _ _ _ _ (Hv _ (asked_first hs)))|].
    destruct v; auto. destruct Hs as [Hs1 Hs2]. split; [exact Hs1|]. unfold hint_pos. destruct (h_pos _); lia.
  - destruct Hl as (Hts & Hvs & Hn & Hv & _). split; [eapply Forall_impl; [|exact Hn]; intros t; apply readable_good|].
    split; [eapply Forall_impl; [|exact Hv]; intros v Hx; exact (legible_textual _ _ _ _ _ (Hx _ (asked_first hs)))|].
    destruct Hs as [[Hs1 Hs2]|Hs].
    + left. split; [exact Hs1|]. intros n Hi. apply in_map_iff in Hi. destruct Hi as (t & <- & Hi). now apply Hs2.
    + right. intros rows <- HR. apply Forall_forall. intros row Hi. apply In_nth_error in Hi. destruct Hi as [i Ei].
      apply adjacent_alternating; [|discriminate]. intros j v w Hv1 Hw.
      assert (length row = length ts) as Hlen. { rewrite Forall_forall in HR. apply HR. eapply nth_error_In; eauto. }
      assert (S j < length ts) as Hj by (rewrite <- Hlen; apply nth_error_Some; congruence).
      apply (Hs i j v w Hj); rewrite (concat_nth (length ts)) by (assumption || lia); now rewrite Ei.
Qed.
Lemma round_entry g maxout hs e ps : round_trips g maxout hs e -> spells g maxout hs e ps -> entry_ok g maxout e ps.
Proof.
  intros [_ Hl] Hs. destruct e as [t v|ts vs]; cbn [legible_entry spells entry_ok] in *.
  - destruct Hl as [Hn Hv]. destruct Hs as (p & -> & f & req & -> & Hr & Hp). exists (PVal v f). split; [reflexivity|]. split; [exact Hn|].
    exists f, req. split; [reflexivity|]. split; [exact Hp|now apply Hv].
  - destruct Hl as (Hts & Hvs & Hn & Hv & _). destruct Hs as (qs & -> & HF). exists qs. split; [reflexivity|]. split; [exact Hts|]. split; [exact Hn|]. split; [exact Hvs|].
    clear -HF Hv. induction HF as [|v p vs qs H HF IH]; constructor.
    + destruct H as (f & req & -> & Hr & Hp). exists f, req. split; [reflexivity|]. split; [exact Hp|]. inversion Hv; auto.
    + apply IH. now inversion Hv.
Qed.

(** ** Files *)
Lemma laid_blank q ps w o : blanks_only w -> laid_after q ps o -> laid_after q ps (w ++ o).
Proof.
  intros Hw. destruct ps as [|p ps]; cbn [laid_after]; [now apply blanks_app|].
  intros (w' & r & -> & Hw' & Hg & Hr). exists (w ++ w'), r. rewrite <- !app_assoc. split; [reflexivity|]. split; [now apply blanks_app|]. split; [|exact Hr].
  destruct Hg as [Hg|Hg]; [left|now right]. destruct w; [exact Hg|discriminate].
Qed.
Definition printed_block (g : grammar) (maxout : Z) (x : str * list item * str) : Prop :=
  match x with (nm, es, out) => readable_heading g nm /\ exists pss, Forall2 (entry_ok g maxout) es pss /\ laid_after None (concat pss) out end.
Definition text_of (xs : list (str * list item * str)) : str := file_text (map (fun x => match x with (nm, _, out) => (nm, out) end) xs).
Lemma text_cons nm es out xs : text_of ((nm, es, out) :: xs) = 10%N :: (u "data_" ++ nm) ++ 10%N :: out ++ text_of xs.
Proof. unfold text_of, file_text. cbn [map concat fst snd]. rewrite <- !app_assoc. reflexivity. Qed.
Lemma app_cons_nl (w : str) s : w ++ 10%N :: s = (w ++ [nl]) ++ s.
Proof. now rewrite <- app_assoc. Qed.
Lemma blocks_parse g maxout xs : Forall (printed_block g maxout) xs -> forall acc fuel st w, length xs <= fuel -> blanks_only w ->
  (st = PS (w ++ text_of xs) None \/
   exists t m rest R, st = PS rest (Some (t, m, R)) /\ incl item_follow R /\
     forall restrict w, restrict = item_follow \/ restrict = value_first g ++ item_follow \/ restrict = [DataHeading; End] -> blanks_only w ->
       scan g restrict (w ++ text_of xs) = Ret (t, m, rest)) ->
  parse_more fuel g acc st = Ret (acc ++ map (fun x => match x with (nm, es, _) => DBlock nm (read_of es) end) xs).
Proof.
  induction 1 as [|[[nm es] out] xs Hx HX IH]; intros acc fuel st w Hf Hw Hst.
  - assert (exists m rest R, peek g [DataHeading; End] st = Ret (End, PS rest (Some (End, m, R))) /\ In End R) as (m & rest & R & E & HR).
    { destruct Hst as [->|(t & m & rest & R & -> & HR & HS)].
      - exists [], [], [DataHeading; End]. split; [|cbn; tauto]. apply peek_fresh.
        change (text_of []) with (@nil N). rewrite app_nil_r. apply end_scan; [cbn; tauto|cbn; intuition discriminate|exact Hw].
      - specialize (HS [DataHeading; End] [] ltac:(tauto) ltac:(constructor)). change ([] ++ text_of []) with (@nil N) in HS.
        rewrite (end_scan g [DataHeading; End] []) in HS; [|cbn; tauto|cbn; intuition discriminate|constructor]. injection HS as <- <- <-.
        exists [], [], R. split; [|apply HR; cbn; tauto]. apply peek_pend; [discriminate|]. intros x Hi. apply HR. cbn in Hi |- *. tauto. }
    assert (parse_more fuel g acc st = obind (take g End (PS rest (Some (End, m, R)))) (fun _ => Ret acc)) as ->.
    { destruct fuel; cbn [parse_more]; rewrite E; reflexivity. }
    rewrite take_pend; [cbn [obind map]; now rewrite app_nil_r|exact HR|now destruct R].
  - destruct Hx as ([Hnm1 Hnm2] & pss & HF & HL). rewrite text_cons in *.
    assert (exists R, peek g [DataHeading; End] st = Ret (DataHeading, PS (10%N :: out ++ text_of xs) (Some (DataHeading, u "data_" ++ nm, R))) /\ In DataHeading R) as (R & E & HR).
    { assert (forall w, blanks_only w -> scan g [DataHeading; End] (w ++ 10%N :: (u "data_" ++ nm) ++ 10%N :: out ++ text_of xs) = Ret (DataHeading, u "data_" ++ nm, 10%N :: out ++ text_of xs)) as HS'.
      { intros w' Hw'. rewrite (app_cons_nl w'). apply heading_scan; [tauto|exact Hnm1|exact Hnm2|cbn; tauto|apply blanks_app; [exact Hw'|apply blanks_nl]]. }
      destruct Hst as [->|(t & m & rest & R & -> & HR & HS)].
      - exists [DataHeading; End]. split; [|cbn; tauto]. apply peek_fresh. now apply HS'.
      - specialize (HS [DataHeading; End] [] ltac:(tauto) ltac:(constructor)). rewrite (HS' [] ltac:(constructor)) in HS. injection HS as <- <- <-.
        exists R. split; [|apply HR; cbn; tauto]. apply peek_pend; [discriminate|]. intros x Hi. apply HR. cbn in Hi |- *. tauto. }
    destruct fuel as [|fuel]; [cbn in Hf; lia|]. cbn [parse_more]. rewrite E. cbn [obind].
    change (tok_eqb DataHeading DataHeading) with true. cbn iota. unfold parse_dblock.
    rewrite take_pend; [|exact HR|now destruct R]. cbn [obind fst snd].
    assert (laid_after None (concat pss) ([10%N] ++ out)) as HL' by (apply laid_blank; [apply blanks_nl|exact HL]).
    assert (exists t m rest, In t [SaveHeading; SaveEnd; DataHeading; End] /\ t <> SaveHeading /\
      forall restrict w, restrict = item_follow \/ restrict = value_first g ++ item_follow \/ restrict = [DataHeading; End] -> blanks_only w ->
       scan g restrict (w ++ text_of xs) = Ret (t, m, rest)) as (t & m & rest & Ht & Ht' & HS).
    { destruct HX as [|[[nm' es'] out'] xs' Hx' HX'].
      - exists End, [], []. split; [cbn; tauto|]. split; [discriminate|]. intros restrict w' Hr Hw'. change (text_of []) with (@nil N). rewrite app_nil_r.
        apply end_scan; [| |exact Hw']; destruct Hr as [->|[->| ->]]; destruct g; cbn; intuition discriminate.
      - destruct Hx' as ([Hnm1' Hnm2'] & _). exists DataHeading, (u "data_" ++ nm'), (10%N :: out' ++ text_of xs').
        split; [cbn; tauto|]. split; [discriminate|]. intros restrict w' Hr Hw'. rewrite text_cons, (app_cons_nl w').
        apply heading_scan; [tauto|exact Hnm1'|exact Hnm2'|cbn; tauto|apply blanks_app; [exact Hw'|apply blanks_nl]]. }
    destruct (contents_parse g maxout (text_of xs) t m rest) with (es := es) (pss := pss) (q := @None piece) (o := [10%N] ++ out) (frame := false)
      (fuel := S (size (PS (10%N :: out ++ text_of xs) None))) as (R' & HR' & EC); auto.
    { destruct xs as [|[[nm' es'] out'] xs']; [now left|]. right. rewrite text_cons. eauto. }
    { intros restrict w' Hr Hw'. apply HS; [tauto|exact Hw']. }
    { unfold size. cbn. lia. }
    cbn [app] in EC. rewrite EC. cbn [obind fst snd]. rewrite (IH _ fuel _ []).
    + cbn [map]. rewrite <- app_assoc. cbn [app]. reflexivity.
    + cbn in Hf. lia.
    + constructor.
    + right. exists t, m, rest, R'. auto.
Qed.

(** ** Reading the entries of a printed block *)
Lemma textual_parsed v : textual v -> parsed (canon v).
Proof.
  induction v as [s|s| |l IH|l IH|d IH] using value_rect'; intros H; inversion H; subst; cbn [canon]; constructor.
  - rewrite Forall_map. rewrite Forall_forall in *. auto.
  - rewrite Forall_map. rewrite Forall_forall in *. auto.
  - rewrite Forall_map. rewrite Forall_forall in *. cbn [snd]. auto.
Qed.
Lemma canon_ok g maxout hs e : round_trips g maxout hs e -> item_ok (canon_item e) /\ loop_full (canon_item e).
Proof.
  intros [_ H]. destruct e as [t v|ts vs]; cbn [legible_entry canon_item item_ok loop_full] in *.
  - destruct H as [(r & -> & _) Hv]. split; [|exact I]. split; [exists r; reflexivity|].
    apply textual_parsed. exact (legible_textual _ _ _ _ _ (Hv _ (asked_first hs))).
  - destruct H as (H1 & H2 & H3 & H4 & H5). split; [|exact H5]. split; [exact H1|]. split; [now destruct vs|]. split.
    + eapply Forall_impl; [|exact H3]. intros t (r & -> & _). exists r; reflexivity.
    + rewrite Forall_map. eapply Forall_impl; [|exact H4]. intros v Hv. apply textual_parsed. exact (legible_textual _ _ _ _ _ (Hv _ (asked_first hs))).
Qed.
Lemma concat_length_rows {A} n (rows : list (list A)) : Forall (fun r => length r = n) rows -> length (concat rows) = length rows * n.
Proof. induction 1 as [|r rows H HF IH]; [reflexivity|]. cbn [concat length]. rewrite app_length, IH. lia. Qed.
Lemma shown_whole b it e : shows b it e -> item_whole (canon_item e).
Proof.
  destruct it as [n|k], e as [t v|ts vs]; cbn [shows canon_item item_whole]; try tauto. intros (_ & _ & H).
  destruct (rows_of_table b ts vs H) as (cols & rows & _ & _ & _ & <- & HR). unfold whole_rows. rewrite map_length.
  exists (length rows). now apply concat_length_rows.
Qed.
Lemma layout_shows b its : NoDup (dkeys (b_loops b)) -> forall k, Forall (holds_item b) its ->
  (forall t, In t (all_names its) -> dget str_eqb (lower t) (b_true b) = Some t) -> incl (loop_layout k its) (b_loops b) ->
  Forall2 (shows b) (layout k its) its.
Proof.
  intros Hnd. induction its as [|[t v|ts vs] its IH]; intros k Hh Ht Hl; cbn [layout loop_layout] in *; [constructor| |].
  - inversion Hh; subst. constructor.
    + cbn [shows]. split; [reflexivity|]. split; [apply Ht; now left|assumption].
    + apply IH; auto. intros x Hx. apply Ht. now right.
  - inversion Hh; subst. constructor.
    + cbn [shows]. split; [apply (dget_In_NoDup _ Z.eqb_spec _ _ _ Hnd), Hl; now left|]. split; [|assumption].
      apply Forall_forall. intros t Hi. apply Ht. unfold all_names. cbn [flat_map]. apply in_or_app. now left.
    + apply IH; auto.
      * intros x Hx. apply Ht. unfold all_names. cbn [flat_map]. apply in_or_app. now right.
      * intros x Hx. apply Hl. now right.
Qed.
Lemma plain_read es : plain_items (read_of es) = map canon_item es.
Proof. destruct es; [reflexivity|]. cbn [read_of plain_items flat_map]. now rewrite app_nil_r. Qed.
Lemma entries_read g maxout hs b' o es mx un : WF b' -> Permutation o (b_order b') ->
  Forall2 (shows b') o es -> Forall (round_trips g maxout hs) es ->
  names_fit mx es ->
  exists bl, read_block (plain_items (read_of es)) (empty_block false mx un) = (bl, Ret tt) /\ WF bl /\
    Forall2 (shows bl) (b_order bl) (map canon_item es).
Proof.
  intros W' Hperm HF Hr Hfit. rewrite plain_read.
  assert (Forall item_ok (map canon_item es) /\ Forall loop_full (map canon_item es)) as [Ho Hl].
  { rewrite !Forall_map. split; (eapply Forall_impl; [|exact Hr]); intros e He; apply (canon_ok _ _ _ _ He). }
  pose proof (read_block_full (map canon_item es) mx un Ho Hl) as HB. cbv zeta in HB. destruct HB as (H1 & H2 & _).
  destruct (read_block (map canon_item es) (empty_block false mx un)) as [bl r]. cbn [fst snd] in *. exists bl.
  assert (r = Ret tt) as ->.
  { apply H1. rewrite canon_names. split; [|split].
    - rewrite (shows_place b' o es HF). apply (Permutation_NoDup (l := b_keys b')); [|apply (wf_keys b' W')].
      rewrite (Permutation_flat_map (place b') Hperm). rewrite place_split. rewrite <- (wf_place b' W'). unfold printed_names. apply Permutation_app_head.
      rewrite <- (cols_all (b_loops b') (wf_nums b' W')). apply Permutation_flat_map. symmetry. apply (wf_refs b' W').
    - rewrite Forall_map. clear -HF. induction HF; constructor; auto. eapply shown_whole; eauto.
    - intros H n. rewrite canon_names. now apply Hfit. }
  destruct (H2 eq_refl) as (W2 & Hh & Hk & Ht & Hord & Hlp). split; [reflexivity|]. split; [exact W2|]. rewrite Hord.
  apply layout_shows; [apply (wf_nums bl W2)|exact Hh| |rewrite Hlp; apply incl_refl].
  intros t Hi. apply (dget_In_NoDup _ str_eqb_spec).
  - apply (Permutation_NoDup (l := b_keys bl)); [symmetry; apply (wf_true bl W2)|apply (wf_keys bl W2)].
  - rewrite Ht. apply in_map_iff. exists t. auto.
Qed.
