(** Parsing the text of a printed block. *)
From Coq Require Import String Ascii List NArith ZArith Bool Lia ZifyBool ZifyN ZifyNat.
From Verif Require Import PyBase PyFacts RegexModel RegexFacts FoldModel StarBlockModel ScanModel FormatModel ReadModel WriteModel ParseModel
  FoldSpec ScanFacts ScanSpec FormatSpec ScanProofs ScanProofs2 ScanProofs3 TextProofs TextProofs2
  FormatProofs FormatProofs2 FormatProofs3 FormatProofs4 ScanProofs4 WriteSpec ParseSpec WriteProofs WriteProofs2 WriteProofs3 ParseProofs.
Import ListNotations.
Open Scope nat_scope.

Lemma incl_in {A} (l r : list A) : incl l (l ++ r) /\ incl r (l ++ r).
Proof. split; intros x H; apply in_or_app; tauto. Qed.
Lemma loop_follow_place g : value_place g true (value_first g ++ item_follow).
Proof.
  rewrite value_first_tokens. split; [split|].
  - intros t Ht. apply in_or_app. now left.
  - intros t Ht. apply in_app_or in Ht. destruct Ht as [Ht|Ht]; [now left|right]. cbn in Ht |- *. tauto.
  - reflexivity.
Qed.
Lemma loop_scan g restrict t w : restrict = item_follow \/ restrict = value_first g ++ item_follow -> closes g t -> blanks_only w ->
  scan g restrict (w ++ u "loop_" ++ t) = Ret (LBlock, u "loop_", t).
Proof.
  intros [->| ->] Ht Hw; apply blanks_skippable in Hw.
  - rewrite scan_blanks; [|discriminate|cbn; intuition discriminate|exact Hw|reflexivity].
    apply scan_first; [|reflexivity]. apply best_longest.
    + apply accepted_In; [discriminate|]. split; [destruct g; cbn; tauto|left; cbn; tauto].
    + unfold matches. cbn [tok_re]. rewrite re_word by words. reflexivity.
    + intros t' m' r' Hi Hn M. exfalso. apply accepted_In in Hi; [|discriminate]. destruct Hi as [_ Hi]. unfold matches in M.
      assert (In t' (Ign1 :: Ign2 :: item_follow)) as K.
      { destruct Hi as [Hi|Hi]; [right; right; exact Hi|destruct t'; try discriminate Hi; cbn; tauto]. }
      cbn in K. destruct K as [<-|[<-|[<-|[<-|[<-|[<-|[<-|[<-|[]]]]]]]]]; try congruence.
      all: try (change (u "loop_" ++ t) with (108%N :: u "oop_" ++ t) in M; rewrite re_none in M; [discriminate|destruct g; reflexivity|destruct g; reflexivity]).
      cbn in M. discriminate.
  - apply loop_misread; [apply (loop_follow_place g)|apply in_or_app; right; now left|reflexivity|exact Ht|exact Hw].
Qed.
(** A data heading is recognised in all places where it may occur. *)
Lemma heading_scan g restrict nm t w : restrict = item_follow \/ restrict = value_first g ++ item_follow \/ restrict = [DataHeading; End] \/ restrict = [DataHeading] ->
  nm <> [] -> Forall (fun c => name_char g c = true) nm -> ends_name t -> blanks_only w ->
  scan g restrict (w ++ (u "data_" ++ nm) ++ t) = Ret (DataHeading, u "data_" ++ nm, t).
Proof.
  intros Hr Hnm Hn Ht Hw. apply blanks_skippable in Hw.
  assert (restrict <> []) as Hne by (destruct Hr as [->|[->|[->| ->]]]; try discriminate; destruct g; discriminate).
  assert (In DataHeading restrict) as Hd by (destruct Hr as [->|[->|[->| ->]]]; [|apply in_or_app; right| |]; cbn; tauto).
  assert (forall t', In t' restrict -> In t' (value_tokens g ++ item_follow)) as Hsub.
  { destruct Hr as [->|[->|[->| ->]]]; intros t' Hi; [apply in_or_app; now right|now rewrite value_first_tokens in Hi| |]; apply in_or_app; right; cbn in Hi |- *; tauto. }
  assert (~ In ScLine restrict) as Hs.
  { intros X. apply Hsub in X. apply in_app_or in X. destruct X as [X|X]; [destruct g; cbn in X; intuition discriminate|cbn in X; intuition discriminate]. }
  rewrite scan_blanks; [|exact Hne|exact Hs|exact Hw|reflexivity].
  apply scan_first; [|reflexivity]. apply best_longest.
  - apply accepted_In; [exact Hne|]. split; [destruct g; cbn; tauto|now left].
  - unfold matches. cbn [tok_re]. rewrite <- app_assoc. rewrite re_word_plus by words. cbn [starts_with].
    change (starts_with (map lower_char (u "DATA_")) (lower (u "data_" ++ nm ++ t))) with true. cbn iota.
    change (skipn (length (u "DATA_")) (u "data_" ++ nm ++ t)) with (nm ++ t).
    change (firstn (length (u "DATA_")) (u "data_" ++ nm ++ t)) with (u "data_").
    rewrite (span_prefix _ nm t Hn); [destruct nm; [congruence|reflexivity]|].
    destruct t as [|c t]; [exact I|]. destruct Ht as [<-|[<-|[<-|[<-|[]]]]]; destruct g; reflexivity.
  - intros t' m' r' Hi Hneq M. exfalso. apply accepted_In in Hi; [|exact Hne]. destruct Hi as [_ Hi]. unfold matches in M.
    assert (In t' (Ign1 :: Ign2 :: value_tokens g ++ item_follow)) as K.
    { destruct Hi as [Hi|Hi]; [right; right; now apply Hsub|destruct t'; try discriminate Hi; cbn; tauto]. }
    destruct (tok_eq_dec t' End) as [->|N2]; [destruct g; discriminate M|].
    destruct (tok_eq_dec t' Value1) as [->|N1].
    + assert (re_match (re_plain g) ((u "data_" ++ nm) ++ t) = None) as HP.
      { change ((u "data_" ++ nm) ++ t) with (100%N :: (u "ata_" ++ nm) ++ t). rewrite re_plain_match. reflexivity. }
      destruct g; cbn [tok_re] in M; rewrite ?re_alt, HP in M; try discriminate M;
      change ((u "data_" ++ nm) ++ t) with (100%N :: (u "ata_" ++ nm) ++ t) in M; rewrite !re_none in M by reflexivity; discriminate.
    + change ((u "data_" ++ nm) ++ t) with (100%N :: (u "ata_" ++ nm) ++ t) in M.
      rewrite re_none in M; [discriminate| |]; destruct g; cbn in K;
      repeat (destruct K as [<-|K]; [try congruence; reflexivity|]); destruct K.
Qed.
Lemma end_scan g restrict w : In End restrict -> ~ In ScLine restrict -> blanks_only w -> scan g restrict w = Ret (End, [], []).
Proof.
  intros Hi Hs Hw. assert (restrict <> []) as Hne by (intros ->; destruct Hi).
  rewrite <- (app_nil_r w) at 1. rewrite scan_blanks; [|exact Hne|exact Hs|now apply blanks_skippable|reflexivity].
  apply scan_first; [|reflexivity].
  assert (forall ts best, (best = None /\ In End ts) \/ best = Some (End, [], []) -> best_match g ts [] best = Some (End, [], [])) as K.
  { induction ts as [|t ts IH]; intros best H; [destruct H as [[_ []]| ->]; reflexivity|]. cbn [best_match].
    destruct (tok_eq_dec t End) as [->|N].
    - apply IH. right. destruct H as [[-> _]| ->]; reflexivity.
    - rewrite re_none_nil by (destruct t; try congruence; destruct g; reflexivity).
      apply IH. destruct H as [[-> [H|H]]| ->]; [congruence|left; auto|now right]. }
  apply K. left. split; [reflexivity|]. apply accepted_In; [exact Hne|]. split; [destruct g; cbn; tauto|now left].
Qed.

Section Block.
Variables (g : grammar) (maxout : Z).
(** What comes after the block. *)
Variables (T : str) (tk : tok) (tm trest : str).
Hypothesis HT1 : T = [] \/ exists T', T = 10%N :: T'.
Hypothesis HT2 : forall restrict w, restrict = item_follow \/ restrict = value_first g ++ item_follow -> blanks_only w ->
  scan g restrict (w ++ T) = Ret (tk, tm, trest).
Hypothesis HT3 : In tk [SaveHeading; SaveEnd; DataHeading; End].

Definition name_ok (t : str) : Prop := exists r, t = 95%N :: r /\ r <> [] /\ Forall (fun c => name_char g c = true) r.
Definition val_ok (b : bool) (v : value) (p : piece) : Prop :=
  exists f req, p = PVal v f /\ prints g maxout req v f /\ legible g maxout b req v.
Definition piece_ok (p : piece) : Prop :=
  match p with PName t => name_ok t | PLoop => True | PVal v f => exists b, val_ok b v p end.
Lemma piece_nonempty p : piece_ok p -> ptext p <> [].
Proof using HT1 HT2 HT3.
  destruct p as [t| |v f]; cbn [piece_ok ptext].
  - intros (r & -> & _). discriminate.
  - discriminate.
  - intros (b & f' & req & E & P & L). injection E as <-.
    destruct (value_read g maxout v b req f [] [] P L (Forall_nil _)) as [H _]; [intros _; exact I|]. destruct f; [clear - H; cbn in H; lia|discriminate].
Qed.
Lemma compound_open v f req : compound v = true -> prints g maxout req v f -> exists c r, f = c :: r /\ (c = 91%N \/ c = 123%N).
Proof using HT1 HT2 HT3.
  destruct v; try discriminate; intros _; cbn [prints]; intros (body & -> & _); eexists _, _; (split; [reflexivity|tauto]).
Qed.
Lemma T_closes w : blanks_only w -> closes g (w ++ T).
Proof using HT1 HT2 HT3.
  intros Hw. destruct w as [|c w]; [|apply (closes_blank g (c :: w)); [exact Hw|discriminate]].
  destruct HT1 as [->|[T' ->]]; [exact I|left; reflexivity].
Qed.
Lemma after_gap q ps o : laid_after q ps o -> (forall p, touching q p = false) -> ends_name (o ++ T) /\ closes g (o ++ T).
Proof using HT1 HT2 HT3.
  intros HL Hq. assert (o ++ T = [] \/ exists c x, o ++ T = c :: x /\ (c = 32 \/ c = 10)%N) as [->|(c & x & -> & H)]; [|split; exact I|].
  - destruct ps as [|p ps]; cbn [laid_after] in HL.
    + destruct HL as [|c w Hc Hw]; [|right; eexists _, _; split; [reflexivity|exact Hc]].
      destruct HT1 as [->|[T' ->]]; [now left|right; eexists _, _; split; [reflexivity|tauto]].
    + right. destruct HL as (w & r & -> & Hw & G & _). destruct w as [|c w].
      * destruct G as [G|[G|G]]; [congruence| |rewrite Hq in G; discriminate].
        destruct (ptext p) as [|c x]; [discriminate|]. cbn in G. apply N.eqb_eq in G. subst c. eexists _, _. split; [reflexivity|tauto].
      * inversion Hw; subst. eexists _, _. split; [reflexivity|assumption].
  - split; [cbn; destruct H as [->| ->]; tauto|left; destruct H as [->| ->]; reflexivity].
Qed.
Lemma after_value v f ps o : compound v = false -> Forall piece_ok ps -> laid_after (Some (PVal v f)) ps o -> closes g (o ++ T).
Proof using HT1 HT2 HT3.
  intros Hc HP HL. destruct ps as [|p ps]; [now apply T_closes|]. destruct HL as (w & r & -> & Hw & G & _).
  rewrite <- !app_assoc. destruct w as [|c w]; [|apply (closes_blank g (c :: w)); [exact Hw|discriminate]]. cbn [app].
  destruct G as [G|[G|G]]; [congruence| |].
  - destruct (ptext p) as [|c x]; [discriminate|]. cbn in G. apply N.eqb_eq in G. subst c. left. reflexivity.
  - destruct p as [t| |v' f']; try discriminate G. cbn [touching] in G. rewrite Hc in G. cbn [orb] in G.
    apply Forall_cons_iff in HP. destruct HP as [(b & f2 & req & E & P & L) _]. injection E as <-.
    assert (has_triples g) as Hg by (inversion L; subst; try assumption; discriminate).
    destruct (compound_open _ _ _ G P) as (c & x & -> & Hc'). cbn. right. destruct Hg as [->| ->]; [left|right]; (split; [reflexivity|]); destruct Hc' as [->| ->]; cbn; tauto.
Qed.

(** Parser state before the pieces [ps], possibly with the first token looked at. *)
Definition looks (R : list tok) : Prop := R = item_follow \/ R = value_first g ++ item_follow.
Definition before (st : pstate) (ps : list piece) : Prop := exists q o, laid_after q ps o /\
  (st = PS (o ++ T) None
   \/ exists R t m rest, looks R /\ scan g R (o ++ T) = Ret (t, m, rest) /\ st = PS rest (Some (t, m, R))).
Definition heads (ps : list piece) : Prop := match ps with PVal _ _ :: _ => False | _ => True end.
Lemma looks_incl R : looks R -> incl item_follow R.
Proof using HT1 HT2 HT3. intros [->| ->]; [apply incl_refl|apply incl_in]. Qed.
Lemma looks_scline R : looks R -> ~ In ScLine R.
Proof using HT1 HT2 HT3. intros [->| ->]; [cbn; intuition discriminate|]. intros H. apply in_app_or in H. destruct H as [H|H]; [destruct g|]; cbn in H; intuition discriminate. Qed.
(** The token that starts the pieces. *)
Definition starts (ps : list piece) (t : tok) (m rest : str) : Prop :=
  match ps with
  | [] => t = tk /\ m = tm /\ rest = trest
  | PName n :: ps' => t = DataName /\ m = n /\ exists o, rest = o ++ T /\ laid_after (Some (PName n)) ps' o
  | PLoop :: ps' => t = LBlock /\ m = u "loop_" /\ exists o, rest = o ++ T /\ laid_after (Some PLoop) ps' o
  | PVal _ _ :: _ => False
  end.
Lemma scan_pieces R q ps o : looks R -> laid_after q ps o -> heads ps -> Forall piece_ok ps ->
  exists t m rest, scan g R (o ++ T) = Ret (t, m, rest) /\ starts ps t m rest.
Proof using HT1 HT2 HT3.
  intros HR HL Hh HP. destruct ps as [|[n| |v f] ps]; [| | |destruct Hh].
  - eexists _, _, _. split; [now apply HT2|repeat split].
  - destruct HL as (w & r & -> & Hw & _ & HL). apply Forall_cons_iff in HP. destruct HP as [(x & -> & Hx & Hn) _].
    eexists _, _, _. split; [|repeat split; exists r; split; [reflexivity|exact HL]].
    rewrite <- !app_assoc. apply name_scan; [apply (looks_incl R HR); cbn; tauto|now apply looks_scline|exact Hx|exact Hn| |now apply blanks_skippable].
    apply (after_gap _ _ _ HL). reflexivity.
  - destruct HL as (w & r & -> & Hw & _ & HL).
    eexists _, _, _. split; [|repeat split; exists r; split; [reflexivity|exact HL]].
    rewrite <- !app_assoc. apply loop_scan; [exact HR| |exact Hw]. apply (after_gap _ _ _ HL). reflexivity.
Qed.
Lemma peek_before st ps : before st ps -> heads ps -> Forall piece_ok ps -> exists R t m rest,
  peek g item_follow st = Ret (t, PS rest (Some (t, m, R))) /\ incl item_follow R /\ starts ps t m rest
  /\ before (PS rest (Some (t, m, R))) ps.
Proof using HT1 HT2 HT3.
  intros (q & o & HL & [->|(R & t & m & rest & HR & E & ->)]) Hh HP.
  - destruct (scan_pieces item_follow q ps o (or_introl eq_refl) HL Hh HP) as (t & m & rest & E & S).
    exists item_follow, t, m, rest. split; [now apply peek_fresh|]. split; [apply incl_refl|]. split; [exact S|].
    exists q, o. split; [exact HL|]. right. exists item_follow, t, m, rest. repeat split; [now left|exact E].
  - destruct (scan_pieces R q ps o HR HL Hh HP) as (t' & m' & rest' & E' & S). rewrite E in E'. injection E' as <- <- <-.
    exists R, t, m, rest. split; [apply peek_pend; [discriminate|now apply looks_incl]|]. split; [now apply looks_incl|]. split; [exact S|].
    exists q, o. split; [exact HL|]. right. exists R, t, m, rest. repeat split; assumption.
Qed.
Lemma laid_length q ps o : laid_after q ps o -> Forall piece_ok ps -> length ps <= length o.
Proof using HT1 HT2 HT3.
  revert q o. induction ps as [|p ps IH]; intros q o HL HP; [cbn; lia|]. destruct HL as (w & r & -> & _ & _ & HL).
  apply Forall_cons_iff in HP. destruct HP as [Hp HP]. apply IH in HL; [|exact HP]. apply piece_nonempty in Hp.
  rewrite !app_length. destruct (ptext p); [congruence|]. cbn. lia.
Qed.
Lemma size_before st ps : before st ps -> heads ps -> Forall piece_ok ps -> length ps <= size st.
Proof using HT1 HT2 HT3.
  intros (q & o & HL & [->|(R & t & m & rest & HR & E & ->)]) Hh HP.
  - unfold size. cbn [p_inp p_pend]. rewrite app_length. apply laid_length in HL; [lia|exact HP].
  - destruct (scan_pieces R q ps o HR HL Hh HP) as (t' & m' & rest' & E' & S). rewrite E in E'. injection E' as <- <- <-.
    unfold size. cbn [p_inp p_pend].
    destruct ps as [|[n| |v f] ps]; [cbn; lia| | |destruct Hh]; destruct S as (_ & -> & o' & -> & HL'); apply Forall_cons_iff in HP; destruct HP as [Hp HP];
      apply laid_length in HL'; try exact HP; apply piece_nonempty in Hp; cbn [ptext] in Hp; rewrite app_length.
    + destruct n; [congruence|]. cbn. lia.
    + change (length (u "loop_")) with 5. cbn [length]. lia.
Qed.

(** ** Values *)
Lemma value_parse b v p q ps o : val_ok b v p -> laid_after q (p :: ps) o -> Forall piece_ok ps ->
  exists o', reads g b (need v) (o ++ T) (canon v) (o' ++ T) /\ laid_after (Some p) ps o'.
Proof using HT1 HT2 HT3.
  intros (f & req & -> & P & L) (w & r & -> & Hw & _ & HL) HP. cbn [ptext] in *. exists r. split; [|exact HL].
  rewrite <- !app_assoc. apply (value_read g maxout v b req f w (r ++ T) P L Hw). intros Hc. eapply after_value; eauto.
Qed.
Lemma value_taken b v p q ps o : val_ok b v p -> laid_after q (p :: ps) o -> Forall piece_ok ps ->
  exists o', data_value g (PS (o ++ T) None) = Ret (canon v, PS (o' ++ T) None) /\ laid_after (Some p) ps o'.
Proof using HT1 HT2 HT3.
  intros Hv HL HP. destruct (value_parse b v p q ps o Hv HL HP) as (o' & R & HL'). exists o'. split; [|exact HL'].
  unfold data_value. unfold size. cbn [p_inp p_pend]. eapply reads_fresh; [|exact R].
  destruct Hv as (f & req & -> & P & L). destruct HL as (w & r & -> & Hw & _ & HL). cbn [ptext].
  destruct (value_read g maxout v b req f w (r ++ T) P L Hw) as [Hn _]; [intros Hc; eapply after_value; eauto|].
  rewrite !app_length. lia.
Qed.
Lemma value_pending b v inp t R : reads g b (need v) inp (canon v) t -> value_place g b R -> exists tkv m rest,
  scan g R inp = Ret (tkv, m, rest) /\ In tkv (value_tokens g) /\ data_value g (PS rest (Some (tkv, m, R))) = Ret (canon v, PS t None).
Proof using HT1 HT2 HT3.
  intros (tkv & m & rest & H1 & H2 & H3 & H4) HR. exists tkv, m, rest. split; [now apply H2|]. split; [exact H1|].
  unfold data_value, size. cbn [p_inp p_pend]. apply H4; [lia|apply HR].
Qed.
Lemma values_parse vs qs : Forall2 (val_ok true) vs qs -> forall q more o acc fuel, laid_after q (qs ++ more) o -> length qs <= fuel -> heads more -> Forall piece_ok more ->
  exists st, loop_values fuel g acc (PS (o ++ T) None) = Ret (acc ++ map canon vs, st) /\ before st more.
Proof using HT1 HT2 HT3.
  induction 1 as [|v p vs qs Hv HF IH]; intros q more o acc fuel HL Hf Hh HP.
  - cbn [app map] in *. rewrite app_nil_r. destruct (scan_pieces (value_first g ++ item_follow) q more o (or_intror eq_refl) HL Hh HP) as (t & m & rest & E & S).
    exists (PS rest (Some (t, m, value_first g ++ item_follow))). split.
    2: { exists q, o. split; [exact HL|]. right. exists (value_first g ++ item_follow), t, m, rest. repeat split; [now right|exact E]. }
    assert (In t item_follow) as Ht.
    { destruct more as [|[n| |? ?] more]; [| | |destruct Hh]; destruct S as (-> & _); [|cbn; tauto|cbn; tauto]. cbn in HT3 |- *. tauto. }
    assert (expect (value_first g) t = false) as E1.
    { unfold expect. apply not_true_iff_false. intros X. apply tmem_In in X. destruct g; cbn in X, Ht; intuition (subst; discriminate). }
    assert (expect (value_first g ++ item_follow) t = true) as E2 by (apply tmem_In, in_or_app; now right).
    destruct fuel; cbn [loop_values]; rewrite (peek_fresh _ _ _ _ _ _ E); cbn [obind]; rewrite E1, E2; reflexivity.
  - assert (Forall piece_ok (qs ++ more)) as HP'.
    { apply Forall_app. split; [|exact HP]. clear -HF. induction HF as [|x y l l' H HF IH]; constructor; [|exact IH].
      destruct H as (f & req & -> & H). exists true, f, req. auto. }
    cbn [app] in HL. destruct (value_parse true v p q (qs ++ more) o Hv HL HP') as (o' & R & HL').
    destruct (value_pending _ _ _ _ _ R (loop_follow_place g)) as (tkv & m & rest & E & Hi & ED).
    destruct fuel as [|fuel]; [cbn in Hf; lia|]. cbn [loop_values]. rewrite (peek_fresh _ _ _ _ _ _ E). cbn [obind].
    assert (expect (value_first g) tkv = true) as -> by (rewrite value_first_tokens; now apply tmem_In). rewrite ED. cbn [obind fst snd].
    destruct (IH (Some p) more o' (acc ++ [canon v]) fuel HL') as (st & E3 & B); [cbn in Hf; lia|exact Hh|exact HP|].
    exists st. split; [|exact B]. rewrite E3. cbn [map]. rewrite <- app_assoc. reflexivity.
Qed.
Lemma fields_parse ts : Forall name_ok ts -> forall q ps o acc fuel v p, laid_after q (map PName ts ++ p :: ps) o -> (ts <> [] \/ exists tt, q = Some tt /\ forall p, touching q p = false) ->
  length ts <= fuel -> val_ok true v p -> Forall piece_ok ps ->
  exists st o', loop_fields fuel g acc (PS (o ++ T) None) = Ret (acc ++ ts, st) /\ data_value g st = Ret (canon v, PS (o' ++ T) None) /\ laid_after (Some p) ps o'.
Proof using HT1 HT2 HT3.
  induction 1 as [|t ts Ht HF IH]; intros q ps o acc fuel v p HL Hq Hf Hv HP.
  - cbn [app map] in *. rewrite app_nil_r. destruct (value_parse true v p q ps o Hv HL HP) as (o' & R & HL').
    assert (value_place g true (DataName :: value_first g)) as Hpl.
    { apply (first_place g true [DataName]); cbn; intuition (subst; tauto). }
    destruct (value_pending _ _ _ _ _ R Hpl) as (tkv & m & rest & E & Hi & ED).
    eexists _, o'. split; [|split; [exact ED|exact HL']].
    assert (expect (DataName :: value_first g) tkv = true) as E2 by (apply tmem_In; right; now rewrite value_first_tokens).
    assert (tok_eqb tkv DataName = false) as E3 by (destruct g; cbn in Hi; repeat (destruct Hi as [<-|Hi]; [reflexivity|]); destruct Hi).
    destruct fuel; cbn [loop_fields]; rewrite (peek_fresh _ _ _ _ _ _ E); cbn [obind]; rewrite E2, E3; reflexivity.
  - cbn [map app] in HL. destruct HL as (w & r & -> & Hw & _ & HL). destruct Ht as (x & -> & Hx & Hn). cbn [ptext] in *.
    assert (scan g (DataName :: value_first g) (w ++ (95%N :: x) ++ r ++ T) = Ret (DataName, 95%N :: x, r ++ T)) as E.
    { apply name_scan; [now left|intros [X|X]; [discriminate|destruct g; cbn in X; intuition discriminate]|exact Hx|exact Hn| |now apply blanks_skippable].
      apply (after_gap _ _ _ HL). reflexivity. }
    rewrite <- !app_assoc. destruct fuel as [|fuel]; [cbn in Hf; lia|]. cbn [loop_fields]. rewrite (peek_fresh _ _ _ _ _ _ E). cbn [obind].
    change (tok_eqb DataName DataName) with true. cbv iota. rewrite take_pend; [|now left|discriminate]. cbn [obind fst snd].
    destruct (IH (Some (PName (95%N :: x))) ps r (acc ++ [95%N :: x]) fuel v p HL) as (st & o' & E1 & E2 & L2); [right; eexists; split; [reflexivity|reflexivity]|cbn in Hf; lia|exact Hv|exact HP|].
    exists st, o'. split; [|split; assumption]. etransitivity; [exact E1|]. rewrite <- app_assoc. reflexivity.
Qed.

(** ** Items *)
Definition entry_ok (e : item) (ps : list piece) : Prop :=
  match e with
  | Kv t v => exists p, ps = [PName t; p] /\ name_ok t /\ val_ok false v p
  | Lp ts vs => exists qs, ps = PLoop :: map PName ts ++ qs /\ ts <> [] /\ Forall name_ok ts /\ vs <> [] /\ Forall2 (val_ok true) vs qs
  end.
Lemma val_pieces b vs qs : Forall2 (val_ok b) vs qs -> Forall piece_ok qs.
Proof using HT1 HT2 HT3.
  induction 1 as [|x y l l' H HF IH]; constructor; [|exact IH]. destruct H as (f & req & -> & H). exists b, f, req. auto.
Qed.
Lemma entry_pieces e ps : entry_ok e ps -> Forall piece_ok ps /\ heads ps /\ ps <> [].
Proof using HT1 HT2 HT3.
  destruct e as [t v|ts vs]; cbn [entry_ok].
  - intros (p & -> & Hn & Hv). split; [|split; [exact I|discriminate]]. constructor; [exact Hn|]. constructor; [|constructor].
    destruct Hv as (f & req & -> & H). exists false, f, req. auto.
  - intros (qs & -> & _ & Hn & _ & Hv). split; [|split; [exact I|discriminate]]. constructor; [exact I|]. apply Forall_app. split.
    + apply Forall_map. exact Hn.
    + eapply val_pieces; eauto.
Qed.
Lemma entries_pieces es pss : Forall2 entry_ok es pss -> Forall piece_ok (concat pss) /\ heads (concat pss) /\ length es <= length (concat pss).
Proof using HT1 HT2 HT3.
  induction 1 as [|e ps es pss He HF (I1 & I2 & I3)]; [repeat split; constructor|]. destruct (entry_pieces _ _ He) as (H1 & H2 & H3).
  cbn [concat]. split; [apply Forall_app; auto|]. split; [destruct ps; [congruence|exact H2]|].
  rewrite app_length. destruct ps; [congruence|]. cbn [length]. lia.
Qed.
Lemma item_parse e ps more t m R rest : entry_ok e ps -> Forall piece_ok more -> heads more -> incl item_follow R ->
  starts (ps ++ more) t m rest ->
  In t [LBlock; DataName] /\ exists st, data_item g (PS rest (Some (t, m, R))) = Ret (canon_item e, st) /\ before st more.
Proof using HT1 HT2 HT3.
  intros He HP Hh HR HS. unfold data_item.
  assert (incl [LBlock; DataName] R) as HR'. { intros x Hx. apply HR. cbn in Hx |- *. tauto. }
  assert (In t [LBlock; DataName]) as Hit.
  { destruct e as [n v|ts vs]; [destruct He as (p & -> & _)|destruct He as (qs & -> & _)]; destruct HS as (-> & _); cbn; tauto. }
  split; [exact Hit|].
  assert (R <> []) as HRne by (intros ->; destruct (HR' LBlock (or_introl eq_refl))).
  rewrite peek_pend; [|discriminate|exact HR']. cbn [obind].
  destruct e as [n v|ts vs]; cbn [entry_ok canon_item] in *.
  - destruct He as (p & -> & Hn & Hv). cbn [app starts] in HS. destruct HS as (-> & -> & o & -> & HL).
    change (tok_eqb DataName LBlock) with false. change (tok_eqb DataName DataName) with true. cbv iota.
    rewrite take_pend; [|apply HR'; cbn; tauto|exact HRne]. cbn [obind fst snd].
    destruct (value_taken false v p _ more o Hv HL HP) as (o' & -> & HL'). cbn [obind fst snd].
    eexists. split; [reflexivity|]. eexists _, o'. split; [exact HL'|now left].
  - destruct He as (qs & -> & Hne & Hn & Hvne & HF). cbn [app starts] in HS. destruct HS as (-> & -> & o & -> & HL).
    change (tok_eqb LBlock LBlock) with true. cbv iota.
    rewrite take_pend; [|apply HR'; cbn; tauto|exact HRne]. cbn [obind fst snd].
    pose proof (val_pieces _ _ _ HF) as Hqs.
    destruct HF as [|v p vs qs Hv HF]; [congruence|]. apply Forall_cons_iff in Hqs. destruct Hqs as [_ Hqs].
    rewrite <- app_assoc in HL. cbn [app] in HL.
    assert (length ts <= size (PS (o ++ T) None)) as Hsz.
    { unfold size. cbn [p_inp p_pend]. rewrite app_length.
      assert (Forall piece_ok (map PName ts)) as Hpn by (apply Forall_map; exact Hn).
      assert (forall l q r, laid_after q (l ++ r) o -> Forall piece_ok l -> length l <= length o) as K.
      { clear. intros l. revert o. induction l as [|x l IH]; intros o q r HL HP; [cbn; lia|]. destruct HL as (w & r' & -> & _ & _ & HL).
        apply Forall_cons_iff in HP. destruct HP as [Hp HP]. apply IH in HL; [|exact HP].
        rewrite !app_length. assert (ptext x <> []) as Hx.
        { destruct x as [n| |v f]; cbn [ptext]; [destruct Hp as (? & -> & _); discriminate|discriminate|].
          destruct Hp as (b & f' & req & E & P & L). injection E as <-.
          destruct (value_read g maxout v b req f [] [] P L (Forall_nil _)) as [H _]; [intros _; exact I|]. destruct f; [cbn in H; lia|discriminate]. }
        destruct (ptext x); [congruence|]. cbn. lia. }
      apply K in HL; [|exact Hpn]. rewrite map_length in HL. lia. }
    destruct (fields_parse ts Hn (Some PLoop) (qs ++ more) o [] _ v p HL (or_introl Hne) Hsz Hv) as (st & o' & E1 & E2 & HL').
    { apply Forall_app. auto. }
    rewrite E1. cbn [obind fst snd app]. rewrite E2. cbn [obind fst snd].
    destruct (values_parse vs qs HF (Some p) more o' [canon v] (size (PS (o' ++ T) None)) HL') as (st' & E3 & B); [|exact Hh|exact HP|].
    { unfold size. cbn [p_inp p_pend]. rewrite app_length. apply laid_length in HL'; [rewrite app_length in HL'; lia|apply Forall_app; auto]. }
    rewrite E3. cbn [obind fst snd]. exists st'. split; [reflexivity|exact B].
Qed.
Lemma more_parse es pss : Forall2 entry_ok es pss -> forall st acc fuel, before st (concat pss) -> length es <= fuel ->
  exists R, incl item_follow R /\ data_more fuel g acc st = Ret (acc ++ map canon_item es, PS trest (Some (tk, tm, R))).
Proof using HT1 HT2 HT3.
  induction 1 as [|e ps es pss He HF IH]; intros st acc fuel HB Hf.
  - destruct (peek_before st [] HB I (Forall_nil _)) as (R & t & m & rest & E & HR & (-> & -> & ->) & _).
    exists R. split; [exact HR|]. cbn [map]. rewrite app_nil_r.
    assert (expect [LBlock; DataName] tk = false /\ expect item_follow tk = true) as [E1 E2].
    { cbn in HT3. destruct HT3 as [<-|[<-|[<-|[<-|[]]]]]; now split. }
    destruct fuel; cbn [data_more]; rewrite E; cbn [obind]; rewrite E1, E2; reflexivity.
  - destruct (entries_pieces _ _ HF) as (H1 & H2 & _). destruct (entry_pieces _ _ He) as (H3 & H4 & H5).
    cbn [concat] in HB. destruct (peek_before st (ps ++ concat pss) HB) as (R & t & m & rest & E & HR & HS & _); [destruct ps; [congruence|exact H4]|apply Forall_app; auto|].
    destruct (item_parse e ps (concat pss) t m R rest He H1 H2 HR HS) as (Hi & st' & E2 & B).
    destruct fuel as [|fuel]; [cbn in Hf; lia|]. cbn [data_more]. rewrite E. cbn [obind].
    assert (expect [LBlock; DataName] t = true) as -> by (apply tmem_In; exact Hi). rewrite E2. cbn [obind fst snd].
    destruct (IH st' (acc ++ [canon_item e]) fuel B) as (R' & HR' & E3); [cbn in Hf; lia|].
    exists R'. split; [exact HR'|]. rewrite E3. cbn [map]. rewrite <- app_assoc. reflexivity.
Qed.
Definition items_of (es : list item) : list content := match es with [] => [] | _ => [CItems (map canon_item es)] end.
Lemma contents_parse es pss q o frame fuel : Forall2 entry_ok es pss -> laid_after q (concat pss) o -> tk <> SaveHeading -> 2 <= fuel ->
  exists R, incl item_follow R /\ contents fuel g frame (PS (o ++ T) None) = Ret (items_of es, PS trest (Some (tk, tm, R))).
Proof using HT1 HT2 HT3.
  intros HF HL Htk Hf. destruct (entries_pieces _ _ HF) as (H1 & H2 & H3).
  assert (before (PS (o ++ T) None) (concat pss)) as HB by (exists q, o; split; [exact HL|now left]).
  assert (expect [LBlock; DataName] tk = false /\ expect item_follow tk = true /\ tok_eqb tk SaveHeading = false) as (E1 & E2 & E3).
  { cbn in HT3. destruct HT3 as [<-|[<-|[<-|[<-|[]]]]]; [congruence| | |]; now repeat split. }
  destruct (peek_before _ _ HB H2 H1) as (R & t & m & rest & E & HR & HS & HB').
  destruct fuel as [|[|fuel]]; [lia|lia|].
  destruct HF as [|e ps es pss He HF].
  - destruct HS as (-> & -> & ->). exists R. split; [exact HR|]. cbn [contents]. rewrite E. cbn [obind]. rewrite E1, E2, E3. reflexivity.
  - destruct (entries_pieces _ _ HF) as (H4 & H5 & H6). cbn [concat] in *.
    destruct (item_parse e ps (concat pss) t m R rest He H4 H5 HR HS) as (Hi & st' & Ei & B).
    destruct (more_parse es pss HF st' [canon_item e] (size st') B) as (R' & HR' & Em).
    { pose proof (size_before _ _ B H5 H4). lia. }
    exists R'. split; [exact HR'|]. remember (S fuel) as F. cbn [contents]. rewrite E. cbn [obind].
    assert (expect [LBlock; DataName] t = true) as -> by (apply tmem_In; exact Hi).
    unfold data_seq. rewrite Ei. cbn [obind fst snd]. rewrite Em. cbn [obind fst snd]. subst F. cbn [contents].
    rewrite peek_pend; [|discriminate|exact HR']. cbn [obind]. rewrite E1, E2, E3. reflexivity.
Qed.
End Block.
