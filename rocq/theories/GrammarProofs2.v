(** What the parsers return stands in the text. *)
From Coq Require Import String Ascii List NArith PeanoNat Bool Lia.
From Verif Require Import PyBase PyFacts RegexModel RegexFacts RegexSpec RegexProofs ScanModel ScanSpec ScanFacts ScanProofs ScanProofs2 ReadModel ParseModel GrammarSpec FlexProofs.
Import ListNotations.
Open Scope nat_scope.

Lemma re_in r s m t : re_match r s = Some (m, t) -> s = m ++ t /\ lang r m t.
Proof. intros H. apply rmatch_lang. unfold re_match in H. destruct (rmatch r s); [discriminate|injection H as ->; now left]. Qed.
Lemma not_semi c t : lang (RNot (is 59)) c t -> c = [] /\ hd_error t <> Some 59%N.
Proof.
  intros [E H]. split; [exact E|]. intros E2. destruct t as [|d t]; [discriminate|]. injection E2 as ->. apply (H [59%N] t); [reflexivity|]. exists 59%N. split; reflexivity.
Qed.
Lemma first_hd s : first_is 59 s = false -> hd_error s <> Some 59%N.
Proof. destruct s as [|c s]; [discriminate|]. cbn. intros H E. injection E as ->. discriminate H. Qed.
Lemma between_app a b r : between a (b ++ r) -> between b r -> between (a ++ b) r.
Proof.
  intros H Hb. remember (b ++ r) as s eqn:E. induction H as [s|c w s Hc H IH|c w s Hc Hn H IH|x w s Hx Hn H IH]; subst s; cbn [app].
  - exact Hb.
  - apply b_blank; [exact Hc|auto].
  - apply b_line; [exact Hc| |auto]. now rewrite <- app_assoc.
  - rewrite <- app_assoc. apply b_comment; [exact Hx| |auto]. now rewrite <- app_assoc.
Qed.
Lemma ign1_between g s m r : matches g Ign1 s m r -> s = m ++ r /\ between m r.
Proof.
  unfold matches. rewrite re_ign1. destruct s as [|c s]; [discriminate|]. destruct (((c =? 32) || (c =? 9))%N || (is_eol c && negb (first_is 59 s))) eqn:E; [|discriminate]. intros H. injection H as <- <-. split; [reflexivity|].
  apply orb_true_iff in E. destruct E as [E|E].
  - apply b_blank; [|constructor]. apply orb_true_iff in E. rewrite !N.eqb_eq in E. exact E.
  - apply andb_true_iff in E. destruct E as [E1 E2]. apply b_line; [|apply first_hd; now apply negb_true_iff|constructor]. unfold is_eol in E1. apply orb_true_iff in E1. rewrite !N.eqb_eq in E1. exact E1.
Qed.
Lemma dots x t : lang (RStar rdot) x t -> ~ In 10%N x.
Proof. intros H. apply lang_star in H. rewrite Forall_forall in H. intros K. specialize (H _ K). discriminate H. Qed.
Lemma ign2_between g s m r : matches g Ign2 s m r -> s = m ++ r /\ between m r.
Proof.
  unfold matches. cbn [tok_re]. rewrite re_alt. destruct (re_match (rseq [is 35; RStar rdot; one_of [10; 13]%N; RNot (is 59)]) s) as [[m0 r0]|] eqn:A.
  - intros H. injection H as <- <-. apply re_in in A. destruct A as [-> L]. split; [reflexivity|]. cbn [rseq] in L.
    destruct L as (c1 & c2 & -> & (x & -> & X) & (x1 & c3 & -> & Ld & (c4 & c5 & -> & (y & -> & Y) & Ln))). apply N.eqb_eq in X. subst x.
    apply not_semi in Ln. destruct Ln as [-> Hn]. cbn [app]. cbn [existsb] in Y. rewrite orb_false_r in Y. apply orb_true_iff in Y. rewrite !N.eqb_eq in Y.
    apply b_comment; [exact (dots _ _ Ld)|right; now exists y, r0|]. apply b_line; [exact Y|exact Hn|constructor].
  - destruct s as [|c s]; [discriminate|]. unfold is. rewrite re_seq_chr. unfold rdot. rewrite re_star_chr. destruct (35 =? c)%N eqn:E35; [|discriminate]. apply N.eqb_eq in E35. subst c.
    destruct (span (fun c => negb (c =? 10)%N) s) as [a b] eqn:Sp. intros H. injection H as <- <-. pose proof (span_app (fun c => negb (c =? 10)%N) s) as Ap. pose proof (span_all (fun c => negb (c =? 10)%N) s) as Al. pose proof (span_stop (fun c => negb (c =? 10)%N) s) as St.
    rewrite Sp in Ap, Al, St. cbn [fst snd] in Ap, Al, St. split; [now rewrite <- Ap|]. rewrite <- (app_nil_r a). apply b_comment; [| |constructor].
    + rewrite Forall_forall in Al. intros K. specialize (Al _ K). discriminate Al.
    + destruct b as [|d b]; [now left|right]. exists d, b. split; [reflexivity|]. left. specialize (St _ _ eq_refl). apply negb_false_iff in St. now apply N.eqb_eq.
Qed.
Lemma skipped_between g ts w r : skipped g ts w r -> between w r.
Proof.
  intros H. induction H as [s|t m w r W Ig Hm H IH]; [constructor|]. apply between_app; [|exact IH]. apply wins_matches in W. destruct t; try discriminate Ig.
  - now apply (ign1_between g (m ++ w ++ r)).
  - now apply (ign2_between g (m ++ w ++ r)).
Qed.

Section Sound.
Context (g : grammar).
Lemma laid_app ts1 ts2 s s1 s2 : laid g ts1 s s1 -> laid g ts2 s1 s2 -> laid g (ts1 ++ ts2) s s2.
Proof.
  intros H1 H2. induction H1 as [w s Hw|w t m s ts s' Hw Hm H1 IH]; cbn [app].
  - inversion H2 as [w2 s0 Hw2|w2 t m s0 ts s' Hw2 Hm H3]; subst.
    + rewrite app_assoc. apply laid_end. now apply between_app.
    + rewrite app_assoc. apply laid_tok; [|exact Hm|exact H3]. now apply between_app.
  - apply laid_tok; [exact Hw|exact Hm|auto].
Qed.
Definition src (st : pstate) : str := match p_pend st with Some (_, m, _) => m ++ p_inp st | None => p_inp st end.
Definition good (st : pstate) : Prop :=
  match p_pend st with Some (t, m, _) => matches g t (m ++ p_inp st) m (p_inp st) /\ In t (patterns g) | None => True end.
(** From one state to another, by these tokens. *)
Definition steps (ts : list lexeme) (st st' : pstate) : Prop := good st' /\ laid g ts (src st) (src st').
Lemma steps_app ts1 ts2 st st1 st2 : steps ts1 st st1 -> steps ts2 st1 st2 -> steps (ts1 ++ ts2) st st2.
Proof. intros [_ H1] [G2 H2]. split; [exact G2|]. now apply laid_app with (src st1). Qed.
Lemma steps_refl st : good st -> steps [] st st.
Proof. intros G. split; [exact G|]. apply (laid_end g []). constructor. Qed.
Lemma token_steps R st t m st' : R <> [] -> good st -> token g R st = Ret (t, m, st') -> steps [] st st' /\ In t (patterns g) /\ exists r0, p_pend st' = Some (t, m, r0).
Proof.
  intros NR G. unfold token. destruct (p_pend st) as [[[t0 m0] r0]|] eqn:P.
  - destruct (negb _); [discriminate|]. intros H. injection H as <- <- <-. split; [now apply steps_refl|]. unfold good in G. rewrite P in G. split; [tauto|]. now exists r0.
  - pose proof (scan_total g R (p_inp st)) as S1. destruct (scan g R (p_inp st)) as [[[t0 m0] r]|e]; cbn [obind]; [|discriminate]. intros H. injection H as <- <- <-. destruct S1 as (w & E & Sk & W & _).
    assert (In t0 (patterns g)) as HtP. { destruct W as (b & a & EA & _). assert (In t0 (accepted g R)) as Ha by (rewrite EA; apply in_or_app; right; now left). apply accepted_In in Ha; [tauto|exact NR]. }
    split; [|split; [exact HtP|now exists R]]. split; [unfold good; cbn [p_pend p_inp]; split; [exact (wins_matches _ _ _ _ _ _ W)|exact HtP]|]. unfold src. rewrite P. cbn [p_pend p_inp]. rewrite E. apply laid_end. exact (skipped_between _ _ _ _ Sk).
Qed.
Lemma peek_steps R st t st' : R <> [] -> good st -> peek g R st = Ret (t, st') -> steps [] st st' /\ In t (patterns g).
Proof.
  intros NR G. unfold peek. destruct (token g R st) as [[[t0 m] st0]|e] eqn:T; cbn [obind]; [|discriminate]. intros H. injection H as <- <-. destruct (token_steps R st t0 m st0 NR G T) as (S1 & Hp & _). now split.
Qed.
Lemma take_steps t st m st' : good st -> take g t st = Ret (m, st') -> steps (one t m) st st'.
Proof.
  intros G. unfold take. destruct (token g [t] st) as [[[t0 m0] st0]|e] eqn:T; cbn [obind]; [|discriminate]. destruct (tok_eqb t0 t) eqn:E; [|discriminate]. apply tok_eqb_eq in E. subst t0. intros H. injection H as <- <-.
  destruct (token_steps [t] st t m0 st0 ltac:(discriminate) G T) as ([G0 L0] & _ & (r0 & P)). change (one t m0) with ([] ++ one t m0). split; [exact Logic.I|]. eapply laid_app; [exact L0|].
  unfold src at 1 2. rewrite P. cbn [p_pend p_inp]. unfold good in G0. rewrite P in G0. destruct G0 as [G0 _]. apply (laid_tok g [] t m0); [constructor|exact G0|]. apply (laid_end g []). constructor.
Qed.
Lemma obind_ret {A B} (o : outcome A) (k : A -> outcome B) y : obind o k = Ret y -> exists x, o = Ret x /\ k x = Ret y.
Proof. destruct o as [x|e]; cbn [obind]; [|discriminate]. intros H. now exists x. Qed.
Lemma steps_good ts st st' : steps ts st st' -> good st'. Proof. now intros [H _]. Qed.
Lemma steps_l ts st st1 st2 : steps [] st st1 -> steps ts st1 st2 -> steps ts st st2.
Proof. exact (steps_app [] ts st st1 st2). Qed.
Lemma peek_first R st t st' : good st -> peek g R st = Ret (t, st') -> R <> [] -> good st' /\ steps [] st st' /\ In t (patterns g).
Proof. intros G H NR. destruct (peek_steps R st t st' NR G H) as [S1 Hp]. split; [exact (steps_good _ _ _ S1)|]. now split. Qed.
Lemma take_first t st m st' : good st -> take g t st = Ret (m, st') -> good st' /\ steps (one t m) st st'.
Proof. intros G H. pose proof (take_steps t st m st' G H) as S1. split; [exact (steps_good _ _ _ S1)|exact S1]. Qed.

Lemma sc_rest_toks fuel : forall acc st x st', good st -> sc_rest fuel g acc st = Ret (x, st') ->
  exists ls e, x = acc ++ concat ls ++ e /\ steps (map (fun l => (ScLine, l)) ls ++ one EndSc e) st st'.
Proof.
  assert (forall acc st st1 x st', good st1 -> steps [] st st1 -> obind (take g EndSc st1) (fun y => Ret (acc ++ fst y, snd y)) = Ret (x, st') ->
    exists ls e, x = acc ++ concat ls ++ e /\ steps (map (fun l => (ScLine, l)) ls ++ one EndSc e) st st') as Last.
  { intros acc st st1 x st' G1 S1 H. apply obind_ret in H. destruct H as ([e st2] & E2 & H). cbn [fst snd] in H. injection H as <- <-. destruct (take_first _ _ _ _ G1 E2) as [_ S2]. exists [], e. split; [reflexivity|]. exact (steps_l _ _ _ _ S1 S2). }
  induction fuel as [|fuel IH]; intros acc st x st' G H; cbn [sc_rest] in H; apply obind_ret in H; destruct H as ([t st1] & E1 & H); destruct (peek_first _ _ _ _ G E1 ltac:(discriminate)) as (G1 & S1 & _); destruct (tok_eqb t ScLine); try discriminate H.
  - exact (Last _ _ _ _ _ G1 S1 H).
  - apply obind_ret in H. destruct H as ([l st2] & E2 & H). cbn [fst snd] in H. destruct (take_first _ _ _ _ G1 E2) as [G2 S2]. destruct (IH _ _ _ _ G2 H) as (ls & e & -> & S3). exists (l :: ls), e. split; [cbn [concat]; now rewrite <- !app_assoc|].
    cbn [map]. change ((ScLine, l) :: map (fun l0 => (ScLine, l0)) ls) with (one ScLine l ++ map (fun l0 => (ScLine, l0)) ls). rewrite <- app_assoc. exact (steps_l _ _ _ _ S1 (steps_app _ _ _ _ _ S2 S3)).
  - exact (Last _ _ _ _ _ G1 S1 H).
Qed.
Lemma sc_lines_toks st x st' : good st -> sc_lines g st = Ret (x, st') ->
  exists m ls e, x = m ++ concat ls ++ e /\ steps (one StartSc m ++ map (fun l => (ScLine, l)) ls ++ one EndSc e) st st'.
Proof.
  intros G H. unfold sc_lines in H. apply obind_ret in H. destruct H as ([m st1] & E1 & H). cbn [fst snd] in H. destruct (take_first _ _ _ _ G E1) as [G1 S1]. destruct (sc_rest_toks _ _ _ _ _ G1 H) as (ls & e & -> & S2).
  exists m, ls, e. split; [reflexivity|]. exact (steps_app _ _ _ _ _ S1 S2).
Qed.
Lemma delimited_toks st k st' : good st -> delimited g st = Ret (k, st') -> exists ts, key_toks k ts /\ steps ts st st' /\ cif2 g.
Proof.
  intros G H. unfold delimited in H. apply obind_ret in H. destruct H as ([t st1] & E1 & H). destruct (peek_first _ _ _ _ G E1 ltac:(discriminate)) as (G1 & S1 & Hp).
  destruct (tok_eqb t TripleQ) eqn:T1; [|destruct (tok_eqb t SingleQ) eqn:T2; [|discriminate H]].
  - apply tok_eqb_eq in T1. subst t. apply obind_ret in H. destruct H as ([m st2] & E2 & H). cbn [fst snd] in H. injection H as <- <-. destruct (take_first _ _ _ _ G1 E2) as [_ S2]. exists (one TripleQ m). split; [constructor|]. split; [exact (steps_l _ _ _ _ S1 S2)|].
    unfold cif2. destruct g; cbn in Hp; decompose [or] Hp; try discriminate; tauto.
  - apply tok_eqb_eq in T2. subst t. apply obind_ret in H. destruct H as ([m st2] & E2 & H). cbn [fst snd] in H. injection H as <- <-. destruct (take_first _ _ _ _ G1 E2) as [_ S2]. exists (one SingleQ m). split; [constructor|]. split; [exact (steps_l _ _ _ _ S1 S2)|].
    unfold cif2. destruct g; cbn in Hp; decompose [or] Hp; try discriminate; tauto.
Qed.
Lemma cif2_of t : In t (patterns g) -> t = TripleQ \/ t = SingleQ \/ t = OSquare \/ t = OCurl -> cif2 g.
Proof. intros Hp H. unfold cif2. destruct g; try tauto; cbn in Hp; decompose [or] H; subst t; decompose [or] Hp; try discriminate; contradiction. Qed.
Lemma star2_of : In Comma (patterns g) -> g = GS2.
Proof. intros Hp. destruct g; try reflexivity; cbn in Hp; decompose [or] Hp; try discriminate; contradiction. Qed.
Lemma value_all fuel :
  (forall st v st', good st -> value_go fuel g st = Ret (v, st') -> exists ts, value_toks g v ts /\ steps ts st st')
  /\ (forall b acc ts0 st l st', good st -> list_go fuel g b acc st = Ret (l, st') -> list_toks g (rev acc) ts0 -> (b = true -> acc <> []) ->
        exists ts c, steps (ts ++ one CSquare c) st st' /\ list_toks g (rev l) (ts0 ++ ts))
  /\ (forall b acc ts0 st l st', good st -> table_go fuel g b acc st = Ret (l, st') -> table_toks g (rev acc) ts0 -> (b = true -> acc <> []) ->
        exists ts c, steps (ts ++ one CCurl c) st st' /\ table_toks g (rev l) (ts0 ++ ts)).
Proof.
  induction fuel as [|f (IHv & IHl & IHt)]; [repeat split; intros; discriminate|]. split; [|split].
  - intros st v st' G H. cbn [value_go] in H. apply obind_ret in H. destruct H as ([t st1] & E1 & H). destruct (peek_first _ _ _ _ G E1 ltac:(destruct g; discriminate)) as (G1 & S1 & Hp).
    destruct t; try discriminate H; apply obind_ret in H; destruct H as ([x st2] & E2 & H); cbn [fst snd] in H.
    + injection H as <- <-. destruct (sc_lines_toks _ _ _ G1 E2) as (m & ls & e & -> & S2). eexists. split; [apply v_text|]. exact (steps_l _ _ _ _ S1 S2).
    + destruct (take_first _ _ _ _ G1 E2) as [G2 S2]. apply obind_ret in H. destruct H as ([l st3] & E3 & H). cbn [fst snd] in H. injection H as <- <-.
      destruct (IHt _ _ [] _ _ _ G2 E3 (t_nil g) ltac:(discriminate)) as (ts & c & S3 & L3). eexists. split; [eapply (v_table g x c); [eapply cif2_of; [exact Hp|tauto]|exact L3]|]. exact (steps_l _ _ _ _ S1 (steps_app _ _ _ _ _ S2 S3)).
    + destruct (take_first _ _ _ _ G1 E2) as [G2 S2]. apply obind_ret in H. destruct H as ([l st3] & E3 & H). cbn [fst snd] in H. injection H as <- <-.
      destruct (IHl _ _ [] _ _ _ G2 E3 (l_nil g) ltac:(discriminate)) as (ts & c & S3 & L3). eexists. split; [eapply (v_list g x c); [eapply cif2_of; [exact Hp|tauto]|exact L3]|]. exact (steps_l _ _ _ _ S1 (steps_app _ _ _ _ _ S2 S3)).
    + injection H as <- <-. destruct (delimited_toks _ _ _ G1 E2) as (ts & K & S2 & C2). exists ts. split; [now apply v_quoted|]. exact (steps_l _ _ _ _ S1 S2).
    + injection H as <- <-. destruct (delimited_toks _ _ _ G1 E2) as (ts & K & S2 & C2). exists ts. split; [now apply v_quoted|]. exact (steps_l _ _ _ _ S1 S2).
    + injection H as <- <-. destruct (take_first _ _ _ _ G1 E2) as [G2 S2]. eexists. split; [apply v_plain|]. exact (steps_l _ _ _ _ S1 S2).
  - intros b acc ts0 st l st' G H L Hb. cbn [list_go] in H. apply obind_ret in H. destruct H as ([t st1] & E1 & H).
    match type of E1 with peek g ?R st = _ => destruct (peek_first R _ _ _ G E1 ltac:(destruct g; discriminate)) as (G1 & S1 & Hp); destruct (expect R t); cbn [negb] in H; [|discriminate H] end.
    destruct (b && tok_eqb t Comma) eqn:C.
    + apply andb_true_iff in C. destruct C as [Cb C]. apply tok_eqb_eq in C. subst t b. apply obind_ret in H. destruct H as ([m st2] & E2 & H). cbn [fst snd] in H. destruct (take_first _ _ _ _ G1 E2) as [G2 S2].
      apply obind_ret in H. destruct H as ([v st3] & E3 & H). cbn [fst snd] in H. destruct (IHv _ _ _ G2 E3) as (vs & Hv & S3).
      assert (list_toks g (rev (v :: acc)) (ts0 ++ one Comma m ++ vs)) as L2. { cbn [rev]. apply l_comma; [exact (star2_of Hp)| |exact L|exact Hv]. intros K. apply (Hb eq_refl). destruct acc; [reflexivity|]. cbn in K. now destruct (rev acc). }
      destruct (IHl _ _ _ _ _ _ (steps_good _ _ _ S3) H L2 ltac:(discriminate)) as (ts & c & S4 & L4). exists ((one Comma m ++ vs) ++ ts), c. split; [|now rewrite app_assoc].
      rewrite <- !app_assoc. exact (steps_l _ _ _ _ S1 (steps_app _ _ _ _ _ S2 (steps_app _ _ _ _ _ S3 S4))).
    + destruct (expect (value_first g) t).
      * apply obind_ret in H. destruct H as ([v st3] & E3 & H). cbn [fst snd] in H. destruct (IHv _ _ _ G1 E3) as (vs & Hv & S3).
        assert (list_toks g (rev (v :: acc)) (ts0 ++ vs)) as L2 by (cbn [rev]; now apply l_next).
        destruct (IHl _ _ _ _ _ _ (steps_good _ _ _ S3) H L2 ltac:(discriminate)) as (ts & c & S4 & L4). exists (vs ++ ts), c. split; [|now rewrite app_assoc].
        rewrite <- !app_assoc. exact (steps_l _ _ _ _ S1 (steps_app _ _ _ _ _ S3 S4)).
      * apply obind_ret in H. destruct H as ([c st2] & E2 & H). cbn [fst snd] in H. injection H as <- <-. destruct (take_first _ _ _ _ G1 E2) as [G2 S2]. exists [], c. split; [exact (steps_l _ _ _ _ S1 S2)|now rewrite app_nil_r].
  - intros b acc ts0 st l st' G H L Hb. cbn [table_go] in H. apply obind_ret in H. destruct H as ([t st1] & E1 & H).
    match type of E1 with peek g ?R st = _ => destruct (peek_first R _ _ _ G E1 ltac:(destruct g; discriminate)) as (G1 & S1 & Hp); destruct (expect R t); cbn [negb] in H; [|discriminate H] end.
    assert (forall pre st2 acc', good st2 -> steps pre st st2 ->
      obind (delimited g st2) (fun k => obind (take g Colon (snd k)) (fun c => obind (value_go f g (snd c)) (fun z => table_go f g true ((fst k, fst z) :: acc') (snd z)))) = Ret (l, st') ->
      (forall k kt c v vs, cif2 g -> key_toks k kt -> value_toks g v vs -> table_toks g (rev ((k, v) :: acc')) (ts0 ++ pre ++ kt ++ one Colon c ++ vs)) ->
      exists ts c, steps (ts ++ one CCurl c) st st' /\ table_toks g (rev l) (ts0 ++ ts)) as Pair.
    { intros pre st2 acc' G2 S2 K Mk. apply obind_ret in K. destruct K as ([k st3] & E3 & K). cbn [fst snd] in K. destruct (delimited_toks _ _ _ G2 E3) as (kt & Hk & S3 & C2).
      apply obind_ret in K. destruct K as ([c st4] & E4 & K). cbn [fst snd] in K. destruct (take_first _ _ _ _ (steps_good _ _ _ S3) E4) as [G4 S4].
      apply obind_ret in K. destruct K as ([v st5] & E5 & K). cbn [fst snd] in K. destruct (IHv _ _ _ G4 E5) as (vs & Hv & S5).
      destruct (IHt _ _ _ _ _ _ (steps_good _ _ _ S5) K (Mk _ _ c _ _ C2 Hk Hv) ltac:(discriminate)) as (ts & cc & S6 & L6). exists ((pre ++ kt ++ one Colon c ++ vs) ++ ts), cc. split; [|now rewrite app_assoc].
      rewrite <- !app_assoc. exact (steps_app _ _ _ _ _ S2 (steps_app _ _ _ _ _ S3 (steps_app _ _ _ _ _ S4 (steps_app _ _ _ _ _ S5 S6)))). }
    destruct (b && tok_eqb t Comma) eqn:C.
    + apply andb_true_iff in C. destruct C as [Cb C]. apply tok_eqb_eq in C. subst t b. apply obind_ret in H. destruct H as ([m st2] & E2 & H). cbn [fst snd] in H. destruct (take_first _ _ _ _ G1 E2) as [G2 S2].
      apply (Pair (one Comma m) st2 acc G2 (steps_l _ _ _ _ S1 S2) H). intros k kt c v vs _ Hk Hv. cbn [rev]. apply t_comma; try assumption; [exact (star2_of Hp)|]. intros K. apply (Hb eq_refl). destruct acc; [reflexivity|]. cbn in K. now destruct (rev acc).
    + destruct (expect [TripleQ; SingleQ] t).
      * apply (Pair [] st1 _ G1 S1 H). intros k kt c v vs [Cg|Cg] Hk Hv; cbn [app rev]; rewrite Cg in *; [apply t_next; [now left|exact L|exact Hk|exact Hv]|eapply t_anew; try eassumption; reflexivity].
      * apply obind_ret in H. destruct H as ([c st2] & E2 & H). cbn [fst snd] in H. injection H as <- <-. destruct (take_first _ _ _ _ G1 E2) as [G2 S2]. exists [], c. split; [exact (steps_l _ _ _ _ S1 S2)|now rewrite app_nil_r].
Qed.
Lemma data_value_toks st v st' : good st -> data_value g st = Ret (v, st') -> exists ts, value_toks g v ts /\ steps ts st st'.
Proof. unfold data_value. apply (proj1 (value_all _)). Qed.
Lemma fields_toks fuel : forall acc st l st', good st -> loop_fields fuel g acc st = Ret (l, st') ->
  exists ns, l = acc ++ ns /\ steps (map (fun n => (DataName, n)) ns) st st'.
Proof.
  induction fuel as [|fuel IH]; intros acc st l st' G H; cbn [loop_fields] in H; apply obind_ret in H; destruct H as ([t st1] & E1 & H); destruct (peek_first _ _ _ _ G E1 ltac:(discriminate)) as (G1 & S1 & _); destruct (tok_eqb t DataName); try discriminate H.
  - destruct (expect _ t); [|discriminate H]. injection H as <- <-. exists []. split; [now rewrite app_nil_r|exact S1].
  - apply obind_ret in H. destruct H as ([n st2] & E2 & H). cbn [fst snd] in H. destruct (take_first _ _ _ _ G1 E2) as [G2 S2]. destruct (IH _ _ _ _ G2 H) as (ns & -> & S3). exists (n :: ns). split; [now rewrite <- app_assoc|].
    exact (steps_l _ _ _ _ S1 (steps_app (one DataName n) _ _ _ _ S2 S3)).
  - destruct (expect _ t); [|discriminate H]. injection H as <- <-. exists []. split; [now rewrite app_nil_r|exact S1].
Qed.
Lemma values_all fuel : forall acc st l st', good st -> loop_values fuel g acc st = Ret (l, st') ->
  exists vs ts, l = acc ++ vs /\ values_toks g vs ts /\ steps ts st st'.
Proof.
  induction fuel as [|fuel IH]; intros acc st l st' G H; cbn [loop_values] in H; apply obind_ret in H; destruct H as ([t st1] & E1 & H); destruct (peek_first _ _ _ _ G E1 ltac:(destruct g; discriminate)) as (G1 & S1 & _); destruct (expect (value_first g) t); try discriminate H.
  - destruct (expect _ t); [|discriminate H]. injection H as <- <-. exists [], []. split; [now rewrite app_nil_r|]. split; [constructor|exact S1].
  - apply obind_ret in H. destruct H as ([v st2] & E2 & H). cbn [fst snd] in H. destruct (data_value_toks _ _ _ G1 E2) as (ts & Hv & S2). destruct (IH _ _ _ _ (steps_good _ _ _ S2) H) as (vs & ts' & -> & Hvs & S3).
    exists (v :: vs), (ts ++ ts'). split; [now rewrite <- app_assoc|]. split; [now constructor|]. exact (steps_l _ _ _ _ S1 (steps_app _ _ _ _ _ S2 S3)).
  - destruct (expect _ t); [|discriminate H]. injection H as <- <-. exists [], []. split; [now rewrite app_nil_r|]. split; [constructor|exact S1].
Qed.
Lemma item_all st i st' : good st -> data_item g st = Ret (i, st') -> exists ts, item_toks g i ts /\ steps ts st st'.
Proof.
  intros G H. unfold data_item in H. apply obind_ret in H. destruct H as ([t st1] & E1 & H). destruct (peek_first _ _ _ _ G E1 ltac:(discriminate)) as (G1 & S1 & _). destruct (tok_eqb t LBlock); [|destruct (tok_eqb t DataName); [|discriminate H]].
  - apply obind_ret in H. destruct H as ([m st2] & E2 & H). cbn [fst snd] in H. destruct (take_first _ _ _ _ G1 E2) as [G2 S2].
    apply obind_ret in H. destruct H as ([ns st3] & E3 & H). cbn [fst snd] in H. destruct (fields_toks _ _ _ _ _ G2 E3) as (ns' & En & S3). cbn [app] in En. subst ns'.
    apply obind_ret in H. destruct H as ([v st4] & E4 & H). cbn [fst snd] in H. destruct (data_value_toks _ _ _ (steps_good _ _ _ S3) E4) as (ts & Hv & S4).
    apply obind_ret in H. destruct H as ([vs st5] & E5 & H). cbn [fst snd] in H. destruct (values_all _ _ _ _ _ (steps_good _ _ _ S4) E5) as (vs' & ts' & -> & Hvs & S5). injection H as <- <-.
    eexists. split; [eapply (i_loop g m); [discriminate|cbn [app]; apply vs_cons; [exact Hv|exact Hvs]]|]. exact (steps_l _ _ _ _ S1 (steps_app _ _ _ _ _ S2 (steps_app _ _ _ _ _ S3 (steps_app _ _ _ _ _ S4 S5)))).
  - apply obind_ret in H. destruct H as ([n st2] & E2 & H). cbn [fst snd] in H. destruct (take_first _ _ _ _ G1 E2) as [G2 S2]. apply obind_ret in H. destruct H as ([v st4] & E4 & H). cbn [fst snd] in H. injection H as <- <-. destruct (data_value_toks _ _ _ G2 E4) as (ts & Hv & S4).
    eexists. split; [apply i_pair; exact Hv|]. exact (steps_l _ _ _ _ S1 (steps_app _ _ _ _ _ S2 S4)).
Qed.
Lemma more_all fuel : forall acc st l st', good st -> data_more fuel g acc st = Ret (l, st') -> exists its ts, l = acc ++ its /\ items_toks g its ts /\ steps ts st st'.
Proof.
  induction fuel as [|fuel IH]; intros acc st l st' G H; cbn [data_more] in H; apply obind_ret in H; destruct H as ([t st1] & E1 & H); destruct (peek_first _ _ _ _ G E1 ltac:(discriminate)) as (G1 & S1 & _); destruct (expect [LBlock; DataName] t); try discriminate H.
  - destruct (expect _ t); [|discriminate H]. injection H as <- <-. exists [], []. split; [now rewrite app_nil_r|]. split; [constructor|exact S1].
  - apply obind_ret in H. destruct H as ([i st2] & E2 & H). cbn [fst snd] in H. destruct (item_all _ _ _ G1 E2) as (ts & Hv & S2). destruct (IH _ _ _ _ (steps_good _ _ _ S2) H) as (its & ts' & -> & Hvs & S3).
    exists (i :: its), (ts ++ ts'). split; [now rewrite <- app_assoc|]. split; [now constructor|]. exact (steps_l _ _ _ _ S1 (steps_app _ _ _ _ _ S2 S3)).
  - destruct (expect _ t); [|discriminate H]. injection H as <- <-. exists [], []. split; [now rewrite app_nil_r|]. split; [constructor|exact S1].
Qed.
Lemma contents_all fuel : forall b st cs st', good st -> contents fuel g b st = Ret (cs, st') -> exists ts, contents_toks g b cs ts /\ steps ts st st'.
Proof.
  induction fuel as [|fuel IH]; intros b st cs st' G H; [discriminate H|]. cbn [contents] in H. apply obind_ret in H. destruct H as ([t st1] & E1 & H). destruct (peek_first _ _ _ _ G E1 ltac:(discriminate)) as (G1 & S1 & _). destruct (expect [LBlock; DataName] t).
  - apply obind_ret in H. destruct H as ([its st3] & E3 & H). cbn [fst snd] in H. unfold data_seq in E3. apply obind_ret in E3. destruct E3 as ([i st2] & E2 & E3). cbn [fst snd] in E3. destruct (item_all _ _ _ G1 E2) as (ts & Hi & S2).
    destruct (more_all _ _ _ _ _ (steps_good _ _ _ S2) E3) as (its' & ts' & -> & Hs & S3). apply obind_ret in H. destruct H as ([z st4] & E4 & H). cbn [fst snd] in H. injection H as <- <-. destruct (IH _ _ _ _ (steps_good _ _ _ S3) E4) as (ts4 & H4 & S4).
    eexists. split; [eapply c_items; [|cbn [app]; apply is_cons; [exact Hi|exact Hs]|exact H4]; discriminate|]. rewrite <- app_assoc. exact (steps_l _ _ _ _ S1 (steps_app _ _ _ _ _ S2 (steps_app _ _ _ _ _ S3 S4))).
  - destruct (tok_eqb t SaveHeading && negb (b && match g with G20 => true | _ => false end)) eqn:F.
    + apply obind_ret in H. destruct H as ([h st2] & E2 & H). cbn [fst snd] in H. destruct (take_first _ _ _ _ G1 E2) as [G2 S2]. apply obind_ret in H. destruct H as ([l st3] & E3 & H). cbn [fst snd] in H. destruct (IH _ _ _ _ G2 E3) as (ts3 & H3 & S3).
      apply obind_ret in H. destruct H as ([e st4] & E4 & H). cbn [fst snd] in H. destruct (take_first _ _ _ _ (steps_good _ _ _ S3) E4) as [G4 S4]. apply obind_ret in H. destruct H as ([z st5] & E5 & H). cbn [fst snd] in H. injection H as <- <-. destruct (IH _ _ _ _ G4 E5) as (ts5 & H5 & S5).
      eexists. split; [eapply (c_frame g b h l ts3 e); [|exact H3|exact H5]|]; [|exact (steps_l _ _ _ _ S1 (steps_app _ _ _ _ _ S2 (steps_app _ _ _ _ _ S3 (steps_app _ _ _ _ _ S4 S5))))].
      apply andb_true_iff in F. destruct F as [_ F]. intros -> Eg. rewrite Eg in F. discriminate F.
    + destruct (expect item_follow t); [|discriminate H]. injection H as <- <-. exists []. split; [constructor|exact S1].
Qed.
Lemma file_all fuel : forall acc st ds, good st -> parse_more fuel g acc st = Ret ds ->
  exists bs ts st', ds = acc ++ bs /\ blocks_toks g bs ts /\ steps (ts ++ one End []) st st' /\ (src st' = [] \/ src st' = [10%N]).
Proof.
  assert (forall (acc ds : list dblock) st st1, good st1 -> steps [] st st1 -> obind (take g End st1) (fun _ => Ret acc) = Ret ds ->
    exists bs ts st', ds = acc ++ bs /\ blocks_toks g bs ts /\ steps (ts ++ one End []) st st' /\ (src st' = [] \/ src st' = [10%N])) as Last.
  { intros acc ds st st1 G1 S1 H. apply obind_ret in H. destruct H as ([m st2] & E2 & H). injection H as <-. pose proof (take_steps _ _ _ _ G1 E2) as S2.
    (* the end matches nothing *)
    unfold take in E2. destruct (token g [End] st1) as [[[t m'] st']|e] eqn:T; cbn [obind] in E2; [|discriminate]. destruct (tok_eqb t End) eqn:Q; [|discriminate]. apply tok_eqb_eq in Q. subst t. injection E2 as -> <-.
    destruct (token_steps [End] st1 End m st' ltac:(discriminate) G1 T) as ([G' _] & _ & (r0 & P)). unfold good in G'. rewrite P in G'. destruct G' as [G' _]. apply re_in in G'. destruct G' as [_ [-> D]].
    exists [], [], (PS (p_inp st') None). split; [now rewrite app_nil_r|]. split; [constructor|]. split; [exact (steps_l _ _ _ _ S1 S2)|]. unfold src. cbn [p_pend p_inp]. exact D. }
  induction fuel as [|fuel IH]; intros acc st ds G H; cbn [parse_more] in H; apply obind_ret in H; destruct H as ([t st1] & E1 & H); destruct (peek_first _ _ _ _ G E1 ltac:(discriminate)) as (G1 & S1 & _); destruct (tok_eqb t DataHeading); try discriminate H.
  - exact (Last _ _ _ _ G1 S1 H).
  - apply obind_ret in H. destruct H as ([b st3] & E3 & H). cbn [fst snd] in H. unfold parse_dblock in E3. apply obind_ret in E3. destruct E3 as ([h st2] & E2 & E3). cbn [fst snd] in E3. destruct (take_first _ _ _ _ G1 E2) as [G2 S2].
    apply obind_ret in E3. destruct E3 as ([cs st4] & E4 & E3). cbn [fst snd] in E3. injection E3 as <- <-. destruct (contents_all _ _ _ _ _ G2 E4) as (ts & Hc & S4). destruct (IH _ _ _ (steps_good _ _ _ S4) H) as (bs & ts' & st' & -> & Hb & S5 & D).
    exists (DBlock (skipn 5 h) cs :: bs), (one DataHeading h ++ ts ++ ts'), st'. split; [now rewrite <- app_assoc|]. split; [now constructor|]. split; [|exact D]. rewrite <- !app_assoc. exact (steps_l _ _ _ _ S1 (steps_app _ _ _ _ _ S2 (steps_app _ _ _ _ _ S4 S5))).
  - exact (Last _ _ _ _ G1 S1 H).
Qed.
Theorem parse_file_toks s ds : parse_file g s = Ret ds -> exists ts r, laid g (ts ++ one End []) s r /\ (r = [] \/ r = [10%N]) /\ blocks_toks g ds ts.
Proof. intros H. destruct (file_all _ _ _ _ (Logic.I : good (PS s None)) H) as (bs & ts & st' & -> & Hb & [_ L] & D). exists ts, (src st'). split; [exact L|]. now split. Qed.
End Sound.
