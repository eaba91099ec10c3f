(** Parsing files with save frames and comments. *)
From Coq Require Import String Ascii List NArith ZArith Bool Lia ZifyBool ZifyN ZifyNat.
From Verif Require Import PyBase PyFacts RegexModel RegexFacts FoldModel StarBlockModel ScanModel FormatModel ReadModel WriteModel ParseModel CollectionModel FileModel
  FoldSpec ScanFacts ScanSpec FormatSpec FileSpec ScanProofs ScanProofs2 ScanProofs3 TextProofs TextProofs2
  FormatProofs FormatProofs2 FormatProofs3 FormatProofs4 ScanProofs4 WriteSpec ParseSpec WriteProofs WriteProofs2 WriteProofs3 ParseProofs ParseProofs2 ParseProofs4.
Import ListNotations.
Open Scope nat_scope.

(** ** Save frame headings and ends *)
Lemma save_heading_scan g restrict nm t w : restrict = item_follow \/ restrict = value_first g ++ item_follow ->
  nm <> [] -> Forall (fun c => name_char g c = true) nm -> ends_name t -> blanks_only w ->
  scan g restrict (w ++ (u "save_" ++ nm) ++ t) = Ret (SaveHeading, u "save_" ++ nm, t).
Proof.
  intros Hr Hnm Hn Ht Hw. apply blanks_skippable in Hw.
  assert (restrict <> []) as Hne by (destruct Hr as [->| ->]; try discriminate; destruct g; discriminate).
  assert (In SaveHeading restrict) as Hd by (destruct Hr as [->| ->]; [|apply in_or_app; right]; cbn; tauto).
  assert (forall t', In t' restrict -> In t' (value_tokens g ++ item_follow)) as Hsub.
  { destruct Hr as [->| ->]; intros t' Hi; [apply in_or_app; now right|now rewrite value_first_tokens in Hi]. }
  assert (~ In ScLine restrict) as Hs.
  { intros X. apply Hsub in X. apply in_app_or in X. destruct X as [X|X]; [destruct g; cbn in X; intuition discriminate|cbn in X; intuition discriminate]. }
  rewrite scan_blanks; [|exact Hne|exact Hs|exact Hw|reflexivity].
  apply scan_first; [|reflexivity]. apply best_longest.
  - apply accepted_In; [exact Hne|]. split; [destruct g; cbn; tauto|now left].
  - unfold matches. cbn [tok_re]. rewrite <- app_assoc. rewrite re_word_plus by words. cbn [starts_with].
    change (starts_with (map lower_char (u "SAVE_")) (lower (u "save_" ++ nm ++ t))) with true. cbn iota.
    change (skipn (length (u "SAVE_")) (u "save_" ++ nm ++ t)) with (nm ++ t).
    change (firstn (length (u "SAVE_")) (u "save_" ++ nm ++ t)) with (u "save_").
    rewrite (span_prefix _ nm t Hn); [destruct nm; [congruence|reflexivity]|].
    destruct t as [|c t]; [exact I|]. destruct Ht as [<-|[<-|[<-|[<-|[]]]]]; destruct g; reflexivity.
  - intros t' m' r' Hi Hneq M. apply accepted_In in Hi; [|exact Hne]. destruct Hi as [_ Hi]. unfold matches in M.
    assert (In t' (Ign1 :: Ign2 :: value_tokens g ++ item_follow)) as K.
    { destruct Hi as [Hi|Hi]; [right; right; now apply Hsub|destruct t'; try discriminate Hi; cbn; tauto]. }
    destruct (tok_eq_dec t' SaveEnd) as [->|N3].
    { cbn [tok_re] in M. rewrite re_word in M by words. rewrite <- app_assoc in M.
      change (starts_with (lower (u "SAVE_")) (lower (u "save_" ++ nm ++ t))) with true in M. cbn iota in M.
      change (firstn (length (u "SAVE_")) (u "save_" ++ nm ++ t)) with (u "save_") in M. injection M as <- _.
      rewrite app_length. destruct nm; [congruence|]. apply Nat.lt_add_pos_r. apply Nat.lt_0_succ. }
    exfalso.
    destruct (tok_eq_dec t' End) as [->|N2]; [destruct g; discriminate M|].
    destruct (tok_eq_dec t' Value1) as [->|N1].
    + assert (re_match (re_plain g) ((u "save_" ++ nm) ++ t) = None) as HP.
      { change ((u "save_" ++ nm) ++ t) with (115%N :: (u "ave_" ++ nm) ++ t). rewrite re_plain_match. reflexivity. }
      destruct g; cbn [tok_re] in M; rewrite ?re_alt, HP in M; try discriminate M;
      change ((u "save_" ++ nm) ++ t) with (115%N :: (u "ave_" ++ nm) ++ t) in M; rewrite !re_none in M by reflexivity; discriminate.
    + change ((u "save_" ++ nm) ++ t) with (115%N :: (u "ave_" ++ nm) ++ t) in M.
      rewrite re_none in M; [discriminate| |]; destruct g; cbn in K;
      repeat (destruct K as [<-|K]; [try congruence; reflexivity|]); destruct K.
Qed.
Lemma save_end_scan g restrict t w : restrict = item_follow \/ restrict = value_first g ++ item_follow ->
  ends_name t -> t <> [] -> blanks_only w ->
  scan g restrict (w ++ u "save_" ++ t) = Ret (SaveEnd, u "save_", t).
Proof.
  intros Hr Ht Htn Hw. apply blanks_skippable in Hw.
  assert (restrict <> []) as Hne by (destruct Hr as [->| ->]; try discriminate; destruct g; discriminate).
  assert (In SaveEnd restrict) as Hd by (destruct Hr as [->| ->]; [|apply in_or_app; right]; cbn; tauto).
  assert (forall t', In t' restrict -> In t' (value_tokens g ++ item_follow)) as Hsub.
  { destruct Hr as [->| ->]; intros t' Hi; [apply in_or_app; now right|now rewrite value_first_tokens in Hi]. }
  assert (~ In ScLine restrict) as Hs.
  { intros X. apply Hsub in X. apply in_app_or in X. destruct X as [X|X]; [destruct g; cbn in X; intuition discriminate|cbn in X; intuition discriminate]. }
  rewrite scan_blanks; [|exact Hne|exact Hs|exact Hw|reflexivity].
  apply scan_first; [|reflexivity]. apply best_longest.
  - apply accepted_In; [exact Hne|]. split; [destruct g; cbn; tauto|now left].
  - unfold matches. cbn [tok_re]. rewrite re_word by words. reflexivity.
  - intros t' m' r' Hi Hneq M. exfalso. apply accepted_In in Hi; [|exact Hne]. destruct Hi as [_ Hi]. unfold matches in M.
    assert (In t' (Ign1 :: Ign2 :: value_tokens g ++ item_follow)) as K.
    { destruct Hi as [Hi|Hi]; [right; right; now apply Hsub|destruct t'; try discriminate Hi; cbn; tauto]. }
    destruct (tok_eq_dec t' SaveHeading) as [->|N3].
    { cbn [tok_re] in M. rewrite re_word_plus in M by words.
      change (starts_with (lower (u "SAVE_")) (lower (u "save_" ++ t))) with true in M. cbn iota in M.
      change (skipn (length (u "SAVE_")) (u "save_" ++ t)) with t in M.
      destruct t as [|c t]; [congruence|]. destruct Ht as [<-|[<-|[<-|[<-|[]]]]]; destruct g; discriminate M. }
    destruct (tok_eq_dec t' End) as [->|N2]; [destruct g; discriminate M|].
    destruct (tok_eq_dec t' Value1) as [->|N1].
    + assert (re_match (re_plain g) (u "save_" ++ t) = None) as HP.
      { change (u "save_" ++ t) with (115%N :: u "ave_" ++ t). rewrite re_plain_match. reflexivity. }
      destruct g; cbn [tok_re] in M; rewrite ?re_alt, HP in M; try discriminate M;
      change (u "save_" ++ t) with (115%N :: u "ave_" ++ t) in M; rewrite !re_none in M by reflexivity; discriminate.
    + change (u "save_" ++ t) with (115%N :: u "ave_" ++ t) in M.
      rewrite re_none in M; [discriminate| |]; destruct g; cbn in K;
      repeat (destruct K as [<-|K]; [try congruence; reflexivity|]); destruct K.
Qed.

(** ** Comments *)
Lemma scan_go_fuel g ts : forall f1 f2 s, length s <= f1 -> length s <= f2 -> scan_go f1 g ts s = scan_go f2 g ts s.
Proof.
  induction f1 as [|f1 IH]; intros f2 s H1 H2.
  - destruct s; [|cbn in H1; lia]. destruct f2; [reflexivity|]. cbn [scan_go]. destruct (best_match g ts [] None) as [[[t m] r]|] eqn:E; [|reflexivity].
    destruct (ignored t) eqn:I; [|reflexivity]. exfalso. apply best_some in E. pose proof (wins_split _ _ _ _ _ _ E) as S.
    apply wins_matches in E. apply (ignored_nonempty _ _ _ _ _ I) in E. destruct m; [congruence|discriminate].
  - destruct f2 as [|f2].
    + destruct s; [|cbn in H2; lia]. cbn [scan_go]. destruct (best_match g ts [] None) as [[[t m] r]|] eqn:E; [|reflexivity].
      destruct (ignored t) eqn:I; [|reflexivity]. exfalso. apply best_some in E. pose proof (wins_split _ _ _ _ _ _ E) as S.
      apply wins_matches in E. apply (ignored_nonempty _ _ _ _ _ I) in E. destruct m; [congruence|discriminate].
    + cbn [scan_go]. destruct (best_match g ts s None) as [[[t m] r]|] eqn:E; [|reflexivity].
      destruct (ignored t) eqn:I; [|reflexivity]. apply best_some in E. pose proof (wins_split _ _ _ _ _ _ E) as S.
      apply wins_matches in E. apply (ignored_nonempty _ _ _ _ _ I) in E. subst s. rewrite app_length in *.
      destruct m; [congruence|]. cbn [length] in *. apply IH; lia.
Qed.
Lemma comment_skip g a s : Forall (fun c => is_eol c = false) a -> first_is 59 s = false ->
  scan g [DataHeading; End] (35%N :: a ++ 10%N :: s) = scan g [DataHeading; End] s.
Proof.
  intros Ha Hs. unfold scan at 1. cbn [length scan_go].
  assert (best_match g (accepted g [DataHeading; End]) (35%N :: a ++ 10%N :: s) None = Some (Ign2, 35%N :: a ++ [10%N], s)) as ->.
  { apply best_longest.
    - apply accepted_In; [discriminate|]. split; [destruct g; cbn; tauto|now right].
    - unfold matches. rewrite re_ign2 by exact Ha. now rewrite Hs.
    - intros t m r Hi Hne M. exfalso. apply accepted_In in Hi; [|discriminate]. destruct Hi as [_ Hi]. unfold matches in M.
      assert (In t [Ign1; DataHeading; End]) as K.
      { destruct Hi as [Hi|Hi]; [right; exact Hi|destruct t; try discriminate Hi; cbn; tauto]. }
      cbn in K. destruct K as [<-|[<-|[<-|[]]]].
      + now rewrite re_ign1 in M.
      + rewrite re_none in M by reflexivity. discriminate.
      + unfold re_match in M. cbn [tok_re rmatch] in M. destruct (a ++ 10%N :: s) eqn:E; [now destruct a|discriminate]. }
  cbn [ignored]. change (ignored Ign2) with true. cbv iota.
  apply scan_go_fuel; [rewrite app_length; cbn; lia|lia].
Qed.
Lemma comments_skip g cm s : comment_text cm -> (s = [] \/ exists s', s = 10%N :: s') ->
  scan g [DataHeading; End] (cm ++ s) = scan g [DataHeading; End] s.
Proof.
  intros (ls & Hl & ->) Hs. assert (first_is 59 s = false) as Hs' by (destruct Hs as [->|[s' ->]]; reflexivity). clear Hs.
  induction Hl as [|l ls Hl HF IH]; [reflexivity|]. cbn [map concat]. rewrite <- !app_assoc. cbn [app].
  rewrite <- IH. set (t := concat (map (fun l => l ++ [10%N]) ls) ++ s).
  assert (first_is 59 t = false) as Ht.
  { subst t. destruct HF as [|l' ls [->|(r & -> & _)] HF]; [exact Hs'|reflexivity|reflexivity]. }
  destruct Hl as [->|(r & -> & H1 & H2)].
  - cbn [app]. change (10%N :: t) with ([10%N] ++ t). apply scan_blanks; [discriminate|cbn; intuition discriminate| |exact Ht].
    apply blanks_skippable. apply blanks_nl.
  - cbn [app]. rewrite comment_skip; [reflexivity| |exact Ht].
    apply Forall_forall. intros c Hc. unfold is_eol. destruct (N.eqb_spec c 10); [subst; contradiction|]. destruct (N.eqb_spec c 13); [subst; contradiction|]. reflexivity.
Qed.

(** ** Save frames *)
Definition frame_text (x : str * list item * str) : str :=
  match x with (nm, _, out) => [10; 10]%N ++ u "save_" ++ nm ++ [10%N] ++ out ++ [10; 10]%N ++ u "save_" ++ [10%N] end.
Definition frames_text (fs : list (str * list item * str)) : str := concat (map frame_text fs).
Definition frame_of (x : str * list item * str) : content := match x with (nm, es, _) => CFrame nm (read_of es) end.
Lemma frames_parse g maxout T tk tm trest : (T = [] \/ exists T', T = 10%N :: T') ->
  (forall restrict w, restrict = item_follow \/ restrict = value_first g ++ item_follow -> blanks_only w -> scan g restrict (w ++ T) = Ret (tk, tm, trest)) ->
  In tk [SaveHeading; SaveEnd; DataHeading; End] -> tk <> SaveHeading ->
  forall fs, Forall (printed_block g maxout) fs -> forall es pss out, Forall2 (entry_ok g maxout) es pss -> laid_after None (concat pss) out ->
  forall w fuel, blanks_only w -> length fs + 2 <= fuel ->
  exists R, incl item_follow R /\ contents fuel g false (PS (w ++ frames_text fs ++ out ++ T) None)
    = Ret (map frame_of fs ++ read_of es, PS trest (Some (tk, tm, R))).
Proof.
  intros HT1 HT2 HT3 HT4 fs HF es pss out HE HL. induction HF as [|[[nm fe] fo] fs Hf HF IH]; intros w fuel Hw Hfu.
  - cbn [frames_text map concat app]. rewrite app_assoc.
    destruct (contents_parse g maxout T tk tm trest HT1 HT2 HT3 es pss None (w ++ out) false fuel HE) as (R & HR & E); [now apply laid_blank|exact HT4|cbn in Hfu; lia|].
    exists R. split; [exact HR|exact E].
  - destruct Hf as ([Hn1 Hn2] & fps & HFE & HFL).
    set (rest := frames_text fs ++ out ++ T).
    destruct fuel as [|fuel]; [lia|].
    assert (w ++ frames_text ((nm, fe, fo) :: fs) ++ out ++ T
      = (w ++ [10; 10]%N) ++ (u "save_" ++ nm) ++ ([10%N] ++ fo) ++ ([10; 10]%N ++ u "save_" ++ 10%N :: rest)) as ->.
    { subst rest. unfold frames_text. cbn [map concat frame_text]. rewrite <- !app_assoc. reflexivity. }
    set (T1 := [10; 10]%N ++ u "save_" ++ 10%N :: rest).
    assert (scan g item_follow ((w ++ [10; 10]%N) ++ (u "save_" ++ nm) ++ ([10%N] ++ fo) ++ T1) = Ret (SaveHeading, u "save_" ++ nm, ([10%N] ++ fo) ++ T1)) as E1.
    { apply save_heading_scan; [tauto|exact Hn1|exact Hn2|cbn; tauto|]. apply blanks_app; [exact Hw|]. change [10; 10]%N with ([nl] ++ [nl]). apply blanks_app; apply blanks_nl. }
    destruct (contents_parse g maxout T1 SaveEnd (u "save_") (10%N :: rest)) with (es := fe) (pss := fps) (q := @None piece) (o := [10%N] ++ fo) (frame := true) (fuel := fuel)
      as (R1 & HR1 & E2).
    { right. eexists. reflexivity. }
    { intros restrict w' Hr Hw'. subst T1. rewrite app_assoc. apply save_end_scan; [exact Hr|cbn; tauto|discriminate|].
      apply blanks_app; [exact Hw'|]. change [10; 10]%N with ([nl] ++ [nl]). apply blanks_app; apply blanks_nl. }
    { cbn; tauto. }
    { exact HFE. }
    { apply laid_blank; [apply blanks_nl|exact HFL]. }
    { discriminate. }
    { cbn in Hfu. lia. }
    destruct (IH [10%N] fuel) as (R2 & HR2 & E3); [apply blanks_nl|cbn in Hfu; lia|].
    exists R2. split; [exact HR2|]. cbn [contents]. rewrite (peek_fresh _ _ _ _ _ _ E1). cbn [obind].
    change (expect [LBlock; DataName] SaveHeading) with false. change (tok_eqb SaveHeading SaveHeading) with true.
    cbn [andb negb]. cbv iota.
    rewrite take_pend; [|cbn; tauto|discriminate]. cbn [obind fst snd]. rewrite E2. cbn [obind fst snd].
    rewrite take_pend; [|apply HR1; cbn; tauto|intros ->; apply (HR1 SaveEnd); cbn; tauto]. cbn [obind fst snd].
    change (10%N :: rest) with ([10%N] ++ frames_text fs ++ out ++ T). rewrite E3. cbn [obind fst snd map app frame_of]. reflexivity.
Qed.

(** ** Files *)
Definition fblock : Type := str * list (str * list item * str) * list item * str.
Definition printed_file (g : grammar) (maxout : Z) (x : fblock) : Prop :=
  match x with (nm, fs, es, out) => Forall (printed_block g maxout) fs /\ printed_block g maxout (nm, es, out) end.
Definition fblock_text (x : fblock) : str :=
  match x with (nm, fs, es, out) => [10%N] ++ u "data_" ++ nm ++ [10%N] ++ frames_text fs ++ out end.
Definition ftext (xs : list fblock) : str := concat (map fblock_text xs).
Definition fblock_of (x : fblock) : dblock := match x with (nm, fs, es, out) => DBlock nm (map frame_of fs ++ read_of es) end.
Lemma ftext_cons nm fs es out xs : ftext ((nm, fs, es, out) :: xs) = 10%N :: (u "data_" ++ nm) ++ 10%N :: frames_text fs ++ out ++ ftext xs.
Proof. unfold ftext. cbn [map concat fblock_text]. rewrite <- !app_assoc. reflexivity. Qed.
Lemma frames_length fs : length fs <= length (frames_text fs).
Proof. induction fs as [|[[nm es] o] fs IH]; [cbn; lia|]. unfold frames_text in *. cbn [map concat frame_text]. rewrite !app_length. cbn [length]. lia. Qed.
Lemma fblocks_parse g maxout xs : Forall (printed_file g maxout) xs -> forall acc fuel st w, length xs <= fuel -> blanks_only w ->
  (st = PS (w ++ ftext xs) None \/
   exists t m rest R, st = PS rest (Some (t, m, R)) /\ incl item_follow R /\
     forall restrict w, restrict = item_follow \/ restrict = value_first g ++ item_follow \/ restrict = [DataHeading; End] -> blanks_only w ->
       scan g restrict (w ++ ftext xs) = Ret (t, m, rest)) ->
  parse_upto fuel g acc st = (acc ++ map fblock_of xs, Ret tt).
Proof.
  induction 1 as [|[[[nm fs] es] out] xs Hx HX IH]; intros acc fuel st w Hf Hw Hst.
  - assert (exists m rest R, peek g [DataHeading; End] st = Ret (End, PS rest (Some (End, m, R))) /\ In End R) as (m & rest & R & E & HR).
    { destruct Hst as [->|(t & m & rest & R & -> & HR & HS)].
      - exists [], [], [DataHeading; End]. split; [|cbn; tauto]. apply peek_fresh.
        change (ftext []) with (@nil N). rewrite app_nil_r. apply end_scan; [cbn; tauto|cbn; intuition discriminate|exact Hw].
      - specialize (HS [DataHeading; End] [] ltac:(tauto) ltac:(constructor)). change ([] ++ ftext []) with (@nil N) in HS.
        rewrite (end_scan g [DataHeading; End] []) in HS; [|cbn; tauto|cbn; intuition discriminate|constructor]. injection HS as <- <- <-.
        exists [], [], R. split; [|apply HR; cbn; tauto]. apply peek_pend; [discriminate|]. intros x Hi. apply HR. cbn in Hi |- *. tauto. }
    assert (parse_upto fuel g acc st = match take g End (PS rest (Some (End, m, R))) with Raise e => (acc, Raise e) | Ret _ => (acc, Ret tt) end) as ->.
    { destruct fuel; cbn [parse_upto]; rewrite E; reflexivity. }
    rewrite take_pend; [cbn [map]; now rewrite app_nil_r|exact HR|now destruct R].
  - destruct Hx as (HFS & ([Hnm1 Hnm2] & pss & HF & HL)). rewrite ftext_cons in *.
    set (body := 10%N :: frames_text fs ++ out ++ ftext xs) in *.
    assert (exists R, peek g [DataHeading; End] st = Ret (DataHeading, PS body (Some (DataHeading, u "data_" ++ nm, R))) /\ In DataHeading R) as (R & E & HR).
    { assert (forall w, blanks_only w -> scan g [DataHeading; End] (w ++ 10%N :: (u "data_" ++ nm) ++ body) = Ret (DataHeading, u "data_" ++ nm, body)) as HS'.
      { intros w' Hw'. rewrite (app_cons_nl w'). apply heading_scan; [tauto|exact Hnm1|exact Hnm2|cbn; tauto|apply blanks_app; [exact Hw'|apply blanks_nl]]. }
      destruct Hst as [->|(t & m & rest & R & -> & HR & HS)].
      - exists [DataHeading; End]. split; [|cbn; tauto]. apply peek_fresh. now apply HS'.
      - specialize (HS [DataHeading; End] [] ltac:(tauto) ltac:(constructor)). rewrite (HS' [] ltac:(constructor)) in HS. injection HS as <- <- <-.
        exists R. split; [|apply HR; cbn; tauto]. apply peek_pend; [discriminate|]. intros x Hi. apply HR. cbn in Hi |- *. tauto. }
    destruct fuel as [|fuel]; [cbn in Hf; lia|]. cbn [parse_upto]. rewrite E.
    change (tok_eqb DataHeading DataHeading) with true. cbn iota. unfold parse_dblock.
    rewrite take_pend; [|exact HR|now destruct R]. cbn [obind fst snd].
    assert (exists t m rest, In t [SaveHeading; SaveEnd; DataHeading; End] /\ t <> SaveHeading /\
      forall restrict w, restrict = item_follow \/ restrict = value_first g ++ item_follow \/ restrict = [DataHeading; End] -> blanks_only w ->
       scan g restrict (w ++ ftext xs) = Ret (t, m, rest)) as (t & m & rest & Ht & Ht' & HS).
    { destruct HX as [|[[[nm' fs'] es'] out'] xs' Hx' HX'].
      - exists End, [], []. split; [cbn; tauto|]. split; [discriminate|]. intros restrict w' Hr Hw'. change (ftext []) with (@nil N). rewrite app_nil_r.
        apply end_scan; [| |exact Hw']; destruct Hr as [->|[->| ->]]; destruct g; cbn; intuition discriminate.
      - destruct Hx' as (_ & [Hnm1' Hnm2'] & _). exists DataHeading, (u "data_" ++ nm'), (10%N :: frames_text fs' ++ out' ++ ftext xs').
        split; [cbn; tauto|]. split; [discriminate|]. intros restrict w' Hr Hw'. rewrite ftext_cons, (app_cons_nl w').
        apply heading_scan; [tauto|exact Hnm1'|exact Hnm2'|cbn; tauto|apply blanks_app; [exact Hw'|apply blanks_nl]]. }
    destruct (frames_parse g maxout (ftext xs) t m rest) with (fs := fs) (es := es) (pss := pss) (out := out) (w := [10%N])
      (fuel := S (size (PS body None))) as (R' & HR' & EC); auto.
    { destruct xs as [|[[[nm' fs'] es'] out'] xs']; [now left|]. right. rewrite ftext_cons. eauto. }
    { intros restrict w' Hr Hw'. apply HS; [tauto|exact Hw']. }
    { apply blanks_nl. }
    { subst body. unfold size. cbn [p_inp p_pend length]. rewrite app_length. pose proof (frames_length fs). lia. }
    change ([10%N] ++ frames_text fs ++ out ++ ftext xs) with body in EC. rewrite EC. cbn [obind fst snd]. rewrite (IH _ fuel _ []).
    + cbn [map fblock_of]. rewrite <- app_assoc. cbn [app]. reflexivity.
    + cbn in Hf. lia.
    + constructor.
    + right. exists t, m, rest, R'. auto.
Qed.
Lemma ftext_length xs : length xs <= length (ftext xs).
Proof. induction xs as [|[[[nm fs] es] o] xs IH]; [cbn; lia|]. rewrite ftext_cons. cbn [length]. rewrite !app_length. cbn [length]. rewrite !app_length. lia. Qed.
Lemma ffile_parse g maxout xs cm : Forall (printed_file g maxout) xs -> comment_text cm ->
  parse_upto (length (cm ++ ftext xs)) g [] (PS (cm ++ ftext xs) None) = (map fblock_of xs, Ret tt).
Proof.
  intros HX Hc. set (F := length (cm ++ ftext xs)).
  assert (length xs <= F) as HF by (unfold F; rewrite app_length; pose proof (ftext_length xs); lia).
  pose proof (fblocks_parse g maxout xs HX [] F (PS (ftext xs) None) [] HF (Forall_nil _) (or_introl eq_refl)) as E.
  cbn [app] in E. rewrite <- E. clearbody F.
  assert (peek g [DataHeading; End] (PS (cm ++ ftext xs) None) = peek g [DataHeading; End] (PS (ftext xs) None)) as EP.
  { unfold peek, token. cbn [p_pend p_inp]. rewrite comments_skip; [reflexivity|exact Hc|].
    destruct xs as [|[[[nm fs] es] o] xs]; [now left|]. right. rewrite ftext_cons. eauto. }
  destruct F; cbn [parse_upto]; now rewrite EP.
Qed.
