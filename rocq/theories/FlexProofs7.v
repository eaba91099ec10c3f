(** The two scanners, token by token: names, values and text fields. *)
From Coq Require Import String Ascii List NArith PeanoNat Bool Lia.
From Verif Require Import PyBase PyFacts RegexModel RegexFacts RegexSpec RegexProofs ScanModel ScanFacts ScanSpec ScanProofs ScanProofs2 ScanProofs3 ReadModel ParseModel FlexModel FlexSpec FlexProofs FlexProofs2 FlexProofs3 FlexProofs4 FlexProofs5 FlexProofs6.
Import ListNotations.
Open Scope nat_scope.

Lemma name_best g s' m r : g = G10 \/ g = G11 -> matches g DataName s' m r -> exists n, best_rule initial_rules s' None = Some (ATok DataName, n, m, r).
Proof.
  intros G M. unfold matches in M. rewrite re_name in M. destruct s' as [|c s]; [discriminate|]. destruct (N.eqb_spec c 95) as [->|]; [|discriminate].
  assert (name_char g = name_char1) as Ng by (destruct G as [-> | ->]; reflexivity). rewrite Ng in M.
  assert (rule_match (Rule (RSeq (is 95) (rplus (RChr true_nonblank))) None (ATok DataName)) (95%N :: s) = Some (length m, m, r)) as R.
  { unfold rule_match. cbn [r_trail r_re]. unfold is. rewrite longest_cons. change (95 =? 95)%N with true. cbn iota. rewrite longest_plus. change true_nonblank with name_char1.
    destruct (span name_char1 s) as [[|d x] y]; [discriminate|]. injection M as <- <-. reflexivity. }
  assert (1 <= length m) as Lm. { destruct (span name_char1 s) as [[|d x] y]; [discriminate|]. injection M as <- _. cbn. lia. }
  exists (length m). unfold initial_rules. do 6 no_rule. rewrite (best_new _ _ _ _ _ _ R). cbn [r_act]. fold spaces_rule dot_rule. erewrite best_less; [|apply spaces_match|cbn; lia]. do 7 no_rule.
  erewrite best_less; [reflexivity|apply dot_match; discriminate|lia].
Qed.
(** An undelimited value. *)
Lemma plain_names x : plain_text x -> Forall (fun c => ns c = true) x -> names x.
Proof. intros P F. unfold names. rewrite Forall_forall in *. intros c H. rewrite <- plain_ns by now apply P. now apply F. Qed.
Lemma plain_best_rule g c x r : g = G10 \/ g = G11 -> re_match (re_plain g) (c :: x ++ r) = Some (c :: x, r) -> plain_text (c :: x ++ r) ->
  lower (c :: x) <> u "loop_" -> (g = G10 -> c <> 91%N /\ c <> 93%N) ->
  exists n, best_rule initial_rules (c :: x ++ r) None = Some (ATok Value1, n, c :: x, r).
Proof.
  intros G M P Nl Br. rewrite re_plain_match in M. destruct (reserved_start (c :: x ++ r)) eqn:Rs; [discriminate|]. destruct (plain_first g c) eqn:Pf; [|discriminate].
  assert (plain_next g = fun c => ns c && true) as Pn by (destruct G as [-> | ->]; reflexivity).
  pose proof (span_all (plain_next g) (x ++ r)) as Sa. assert (match r with [] => True | d :: _ => plain_next g d = false end) as Sr.
  { destruct r as [|d r']; [exact I|]. apply (span_stop (plain_next g) (x ++ d :: r') d r'). destruct (span (plain_next g) (x ++ d :: r')). cbn in M. now injection M as _ ->. }
  assert (fst (span (plain_next g) (x ++ r)) = x) as Ex. { destruct (span (plain_next g) (x ++ r)). cbn in M |- *. now injection M. }
  rewrite Ex in Sa. clear M Ex. apply plain_cons in P. destruct P as [Pc P]. apply plain_app in P. destruct P as [Px Pr].
  assert (names x) as Nx. { apply plain_names; [exact Px|]. eapply Forall_impl; [|exact Sa]. rewrite Pn. cbn beta. intros a H. now rewrite andb_true_r in H. }
  assert (ends_name r) as Er. { destruct r as [|d r']; [exact I|]. unfold ends_name. apply plain_cons in Pr. rewrite <- plain_ns by tauto. rewrite Pn in Sr. now rewrite andb_true_r in Sr. }
  assert (value_start c) as Vc.
  { unfold plain_first in Pf. apply andb_prop in Pf. destruct Pf as [P1 P2]. split; [rewrite <- plain_ns by exact Pc; exact P1|]. intros K.
    destruct G as [-> | ->].
    - destruct (Br eq_refl) as [B1 B2]. vm_compute in K. decompose [or] K; try subst c; try discriminate P2; try contradiction; congruence.
    - vm_compute in K. decompose [or] K; try subst c; try discriminate P2; contradiction. }
  assert (first_is 95 (c :: x ++ r) = false) as F5. { cbn [first_is]. apply N.eqb_neq. intros ->. destruct Vc as [_ Vc]. apply Vc. vm_compute. tauto. }
  rewrite rules_split. exists (S (length x)). destruct (sw "loop_" (c :: x ++ r)) eqn:L.
  - rewrite head_loop by assumption. rewrite tail_value by assumption.
    assert (follows g r) as Fo by (unfold follows; destruct r; [exact I|exact Sr]).
    unfold sw in L. change (c :: x ++ r) with ((c :: x) ++ r) in L. rewrite (word_follow g (u "loop_") (c :: x) r Fo) in L by repeat constructor.
    assert (5 < S (length x)) as L5.
    { pose proof (starts_lower_length _ _ L) as K. change (length (u "loop_")) with 5 in K. cbn [length] in K. destruct (Nat.eq_dec (S (length x)) 5) as [E|E]; [|lia]. exfalso. apply Nl. symmetry. apply starts_with_full; [exact L|]. rewrite lower_length. cbn [length]. now rewrite E. }
    assert (length (firstn 5 (c :: x ++ r)) <? S (length x) = true) as ->; [|reflexivity]. apply Nat.ltb_lt. rewrite firstn_length. lia.
  - rewrite head_none by assumption. now rewrite tail_value.
Qed.
(** A quoted value. *)
Lemma quote_best q ex x m r : q = 39%N /\ ex = excl_sq \/ q = 34%N /\ ex = excl_dq -> plain_text x -> re_match (q_rest q ex) x = Some (m, r) ->
  exists n M R, best_rule initial_rules (q :: x) None = Some (AQuote q, n, q :: M, R) /\ fst (quote_end q M) = m /\ snd (quote_end q M) ++ R = r.
Proof.
  intros Q P E. rewrite (quotes_agree q ex x Q P) in E. unfold f_rest in E. destruct (longest (f_line q) x) as [[M R]|] eqn:L; [|discriminate]. injection E as E1 E2.
  assert (1 <= length M) as LM. { apply longest_sound in L. destruct L as [_ (a & b & -> & _ & (y & -> & _))]. rewrite app_length. cbn. lia. }
  exists (S (length M)), M, R. split; [|now split].
  assert (rule_match (Rule (rseq [is q; RStar (RChr true_char); is q]) None (AQuote q)) (q :: x) = Some (S (length M), q :: M, R)) as Rm.
  { unfold rule_match. cbn [r_trail r_re rseq]. unfold is at 1. rewrite longest_cons, N.eqb_refl. fold (f_line q). rewrite L. reflexivity. }
  unfold initial_rules. destruct Q as [[-> _]|[-> _]].
  - do 7 no_rule. fold spaces_rule dot_rule. rewrite (best_new spaces_rule) with (1 := spaces_match _). change (fst (span blank (39%N :: x))) with (@nil N). cbn [length]. do 4 no_rule.
    rewrite (best_more _ _ _ _ _ _ _ _ _ _ Rm) by lia. do 2 no_rule. erewrite best_less; [reflexivity|apply dot_match; discriminate|lia].
  - do 7 no_rule. fold spaces_rule dot_rule. rewrite (best_new spaces_rule) with (1 := spaces_match _). change (fst (span blank (34%N :: x))) with (@nil N). cbn [length]. do 5 no_rule.
    rewrite (best_more _ _ _ _ _ _ _ _ _ _ Rm) by lia. do 1 no_rule. erewrite best_less; [reflexivity|apply dot_match; discriminate|lia].
Qed.
Lemma value_best g s' m r : g = G10 \/ g = G11 -> matches g Value1 s' m r -> plain_text s' -> tok_fit g Value1 m r ->
  exists a n M R, best_rule initial_rules s' None = Some (a, n, M, R) /\ a <> ASkip /\ acted Initial a M R = Ret (Some Value1, m, Initial, r).
Proof.
  intros G M P Fit. assert (s' = m ++ r) as Es by (eapply matches_split; exact M). unfold matches in M.
  assert (tok_re g Value1 = RAlt (re_plain g) (RAlt (re_quoted1 sq excl_sq) (re_quoted1 dq excl_dq))) as Et by (destruct G as [-> | ->]; reflexivity). rewrite Et in M. rewrite !re_alt in M.
  destruct (re_match (re_plain g) s') as [[m1 r1]|] eqn:Ep.
  - injection M as -> ->. assert (exists c x, m = c :: x) as (c & x & ->).
    { rewrite re_plain_match in Ep. destruct (reserved_start s'); [discriminate|]. destruct s' as [|c s']; [discriminate|]. destruct (plain_first g c); [|discriminate]. injection Ep as <- _. eauto. }
    cbn [app] in Es. rewrite Es in Ep, P |- *. cbn [tok_fit] in Fit. destruct Fit as [Fit|[F1 F2]].
    { exfalso. rewrite re_plain_match in Ep. destruct (reserved_start _); [discriminate|]. destruct (plain_first g c) eqn:Pf; [|discriminate]. destruct G as [-> | ->], Fit as [-> | ->]; discriminate Pf. }
    destruct (plain_best_rule g c x r G Ep P F1 F2) as (n & B). exists (ATok Value1), n, (c :: x), r. split; [exact B|]. split; [discriminate|reflexivity].
  - destruct s' as [|q x]; [destruct G as [-> | ->]; discriminate M|].
    assert (forall q0 ex, re_match (re_quoted1 q0 ex) (q :: x) = if (q =? q0)%N then option_map (pre [q]) (re_match (q_rest q0 ex) x) else None) as Qm.
    { intros q0 ex. unfold re_quoted1. cbn [rseq]. unfold is at 1. rewrite re_seq_chr. rewrite N.eqb_sym. reflexivity. }
    rewrite !Qm in M. apply plain_cons in P. destruct P as [Pq P]. unfold sq, dq in M.
    assert (exists ex m0, (q = 39%N /\ ex = excl_sq \/ q = 34%N /\ ex = excl_dq) /\ re_match (q_rest q ex) x = Some (m0, r) /\ m = q :: m0) as (ex & m0 & Q & Em & ->).
    { destruct (N.eqb_spec q 39) as [->|N0].
      - change (39 =? 34)%N with false in M. cbn iota in M. destruct (re_match (q_rest 39 excl_sq) x) as [[m0 r0]|] eqn:E; [|discriminate]. cbn [option_map pre fst snd app] in M. injection M as <- <-. exists excl_sq, m0. tauto.
      - destruct (N.eqb_spec q 34) as [->|N1]; [|discriminate]. destruct (re_match (q_rest 34 excl_dq) x) as [[m0 r0]|] eqn:E; [|discriminate]. cbn [option_map pre fst snd app] in M. injection M as <- <-. exists excl_dq, m0. tauto. }
    destruct (quote_best q ex x m0 r Q P Em) as (n & M0 & R0 & B & E1 & E2). exists (AQuote q), n, (q :: M0), R0. split; [exact B|]. split; [discriminate|]. cbn [acted quoted fst snd]. now rewrite E1, E2.
Qed.
Theorem initial_token g R s t m r : g = G10 \/ g = G11 -> scan g R s = Ret (t, m, r) -> R <> [] -> (forall x, In x R -> In x outside) -> (In SaveEnd R -> In SaveHeading R) ->
  plain_text s -> tok_fit g t m r -> flex_scan Initial s = Ret (Some t, m, after t Initial, r).
Proof.
  intros G E NR Out SE P Fit.
  assert (~ In ScLine R) as NS by (intros K; apply Out in K; cbn in K; intuition discriminate).
  destruct (py_token g R s t m r G E NR NS P) as (S1 & S2 & IR & W & P').
  pose proof (flex_reach (length s) s (le_n _) P) as F. rewrite S1 in F. unfold flex_scan.
  assert (forall a n M R', best_rule initial_rules (m ++ r) None = Some (a, n, M, R') -> a <> ASkip -> m ++ r <> [] -> flex_go (length s) Initial s = acted Initial a M R') as F'.
  { intros a n M R' B Na Ne. destruct (m ++ r) as [|c y] eqn:Ec; [contradiction|]. exact (F a n M R' B Na). }
  pose proof (wins_matches _ _ _ _ _ _ W) as M.
  assert (t <> End -> m ++ r <> []) as Ne.
  { intros Nt K. rewrite K in M. unfold matches in M. pose proof (Out t IR) as O. unfold outside in O. cbn [In] in O.
    destruct G as [-> | ->]; decompose [or] O; try subst t; try contradiction; discriminate M. }
  pose proof (Out t IR) as O. unfold outside in O. cbn [In] in O.
  assert (In t [LBlock; SaveHeading; SaveEnd; DataHeading] -> flex_go (length s) Initial s = Ret (Some t, m, after t Initial, r)) as Word.
  { intros T. destruct (initial_word g R (m ++ r) t m r G W NR T SE IR Fit) as (n & B). rewrite (F' _ _ _ _ B); [reflexivity|discriminate|]. apply Ne. cbn in T. intros ->. intuition discriminate. }
  destruct O as [<-|[<-|[<-|[<-|[<-|[<-|[<-|[<-|[]]]]]]]]]; [apply Word; now left|apply Word; right; now left|apply Word; right; right; now left| |apply Word; right; right; right; now left| | |].
  - destruct (name_best g (m ++ r) m r G M) as (n & B). rewrite (F' _ _ _ _ B); [reflexivity|discriminate|apply Ne; discriminate].
  - pose proof M as M2. unfold matches in M2. rewrite re_startsc in M2. destruct (m ++ r) as [|c s1] eqn:Ec; [discriminate|]. destruct (N.eqb_spec c 10) as [->|N0].
    + destruct s1 as [|d s2]; [discriminate|]. destruct (N.eqb_spec d 59) as [->|]; [|discriminate]. destruct (line_end s2) as [[m1 r1]|] eqn:L; [|discriminate]. cbn [option_map pre fst snd app] in M2. injection M2 as <- <-.
      assert (plain_text s2) as P2 by (apply plain_cons in P'; destruct P' as [_ P']; apply plain_cons in P'; tauto).
      rewrite (F' _ _ _ _ (startsc_best s2 m1 r1 P2 L)); [reflexivity|discriminate|discriminate].
    + destruct (N.eqb_spec c 13) as [->|]; [|discriminate]. exfalso. apply plain_cons in P'. destruct P' as [P' _]. lia.
  - destruct (value_best g (m ++ r) m r G M P' Fit) as (a & n & M0 & R0 & B & Na & Ac). rewrite (F' _ _ _ _ B Na); [exact Ac|apply Ne; discriminate].
  - unfold matches in M. cbn [tok_re] in M. pose proof (end_match _ _ _ M) as ->. cbn [app] in *.
    assert (r = []) as ->. { unfold re_match in M. cbn [rmatch] in M. destruct r as [|c [|d r']]; [reflexivity| |discriminate M]. destruct (N.eqb_spec c 10) as [->|]; [discriminate S2|discriminate M]. }
    exact F.
Qed.

(** ** Within a text field *)
Definition scline_rule : rule := Rule (rseq [none_of [59; 13; 10]%N; RStar (RChr true_char); fx_eols]) None (ATok ScLine).
Lemma scline_match c x : plain_text x -> rule_match scline_rule (c :: x) =
  if not_in [59; 13; 10]%N c then match line_end x with Some (m, r) => Some (S (length m), c :: m, r) | None => None end else None.
Proof.
  intros P. unfold rule_match. cbn [r_trail r_re scline_rule rseq]. unfold none_of. rewrite longest_cons. fold (not_in [59; 13; 10]%N c). fold text_line. rewrite longest_line by exact P.
  destruct (not_in _ c); [|reflexivity]. destruct (line_end x) as [[m r]|]; reflexivity.
Qed.
Definition any_rule : rule := Rule (RChr (fun _ => true)) None ASkip.
Lemma any_match c x : rule_match any_rule (c :: x) = Some (1, [c], x).
Proof. unfold rule_match. cbn [r_trail r_re any_rule]. rewrite (longest_one _ _ ([c], x)); reflexivity. Qed.
Lemma flex_line f c x m r : plain_text x -> not_in [59; 13; 10]%N c = true -> line_end x = Some (m, r) -> flex_go (S f) Alltext (c :: x) = Ret (Some ScLine, c :: m, Alltext, r).
Proof.
  intros P C L. pose proof (scline_match c x P) as M. rewrite C, L in M. cbn [flex_go rules]. unfold alltext_rules. fold scline_rule any_rule. rewrite (best_new _ _ _ _ _ _ M).
  rewrite best_no; [|apply rule_none; [reflexivity|]]. 2:{ cbn [full r_trail r_re first_ok is]. apply N.eqb_neq. intros <-. discriminate C. }
  erewrite best_less; [reflexivity|apply any_match|lia].
Qed.
Lemma flex_semi f x : plain_text x -> flex_go (S f) Alltext (59%N :: x) = Ret (Some EndSc, [59%N], Initial, x).
Proof.
  intros P. cbn [flex_go rules]. unfold alltext_rules. fold scline_rule any_rule. rewrite best_no by (rewrite scline_match by exact P; reflexivity).
  rewrite (best_new _ _ _ 1 [59%N] x) by reflexivity. erewrite best_less; [reflexivity|apply any_match|lia].
Qed.
Lemma flex_drop f c x : plain_text x -> c <> 59%N -> line_end x = None -> flex_go (S f) Alltext (c :: x) = flex_go f Alltext x.
Proof.
  intros P C L. cbn [flex_go rules]. unfold alltext_rules. fold scline_rule any_rule. rewrite best_no by (rewrite scline_match by exact P; rewrite L; now destruct (not_in _ c)).
  rewrite best_no; [|apply rule_none; [reflexivity|]]. 2:{ cbn [full r_trail r_re first_ok is]. apply N.eqb_neq. now apply not_eq_sym. }
  rewrite (best_new _ _ _ _ _ _ (any_match c x)). reflexivity.
Qed.
Lemma line_end_none x : line_end x = None -> plain_text x -> ~ In 10%N x.
Proof.
  intros L P K. unfold line_end in L. destruct (span is_eol (snd (span not_eol x))) as [[|c e] r] eqn:E; [|discriminate].
  rewrite (span_eq not_eol x) in K. apply in_app_or in K. destruct K as [K|K].
  - pose proof (span_all not_eol x) as F. rewrite Forall_forall in F. specialize (F _ K). discriminate F.
  - destruct (snd (span not_eol x)) as [|d y] eqn:Ed; [destruct K|]. apply span_stop in Ed. rewrite not_eol_spec in Ed. apply negb_false_iff in Ed. cbn [span] in E. rewrite Ed in E. destruct (span is_eol y); discriminate E.
Qed.
Lemma no_line x : ~ In 10%N x -> plain_text x -> line_end x = None.
Proof.
  intros H P. unfold line_end. assert (snd (span not_eol x) = []) as ->; [|reflexivity]. destruct (snd (span not_eol x)) as [|d y] eqn:Ed; [reflexivity|]. exfalso.
  assert (In d x) as K by (rewrite (span_eq not_eol x), Ed; apply in_or_app; right; now left). apply span_stop in Ed. rewrite not_eol_spec in Ed. apply negb_false_iff in Ed. unfold is_eol in Ed. specialize (P _ K).
  apply orb_prop in Ed. destruct Ed as [Ed|Ed]; apply N.eqb_eq in Ed; subst; [contradiction|lia].
Qed.
Lemma line_end_plain s m1 r1 : plain_text s -> line_end s = Some (m1, r1) -> exists a n, m1 = a ++ repeat 10%N (S n) /\ ~ In 10%N a /\ s = m1 ++ r1 /\ first_is 10 r1 = false.
Proof.
  intros P L. unfold line_end in L. pose proof (span_eq not_eol s) as S1. pose proof (span_all not_eol s) as S2. pose proof (span_eq is_eol (snd (span not_eol s))) as S3. pose proof (span_all is_eol (snd (span not_eol s))) as S4.
  pose proof (span_stop is_eol (snd (span not_eol s))) as S5.
  destruct (span is_eol (snd (span not_eol s))) as [[|d e] z]; [discriminate|]. injection L as <- <-. cbn [fst snd] in S3, S4, S5. exists (fst (span not_eol s)), (length e).
  assert (plain_text (d :: e)) as Pe. { rewrite S1, S3 in P. apply plain_app in P. destruct P as [_ P]. apply plain_app in P. tauto. }
  split; [f_equal; exact (plain_eols (d :: e) Pe S4)|]. split; [intros K; rewrite Forall_forall in S2; specialize (S2 _ K); discriminate S2|]. split; [rewrite <- app_assoc, <- S3; exact S1|].
  destruct z as [|y z]; [reflexivity|]. specialize (S5 y z eq_refl). cbn [first_is]. unfold is_eol in S5. now apply orb_false_iff in S5.
Qed.
Lemma text_accepted g : g = G10 \/ g = G11 -> accepted g [ScLine; EndSc] = [Ign1; Ign2; ScLine; EndSc].
Proof. intros [-> | ->]; reflexivity. Qed.
(** The rest of a text without a newline. *)
Lemma last_line g s : g = G10 \/ g = G11 -> plain_text s -> ~ In 10%N s -> forall fuel fuel', length s <= fuel -> length s <= fuel' -> forall t m r, scan_go fuel g [Ign1; Ign2; ScLine; EndSc] s = Ret (t, m, r) ->
  t = EndSc /\ m = [59%N] /\ flex_go fuel' Alltext s = Ret (Some EndSc, [59%N], Initial, r) /\ exists w, s = w ++ 59%N :: r.
Proof.
  intros G. induction s as [|c s IH]; intros P N0 fuel fuel' L L' t m r E.
  { exfalso. destruct fuel; cbn [scan_go] in E; destruct G as [-> | ->]; discriminate E. }
  apply plain_cons in P. destruct P as [Pc P]. assert (~ In 10%N s) as N1 by (intros K; apply N0; now right). assert (c <> 10%N) as Nc by (intros ->; apply N0; now left).
  pose proof (no_line s N1 P) as NL. destruct fuel as [|fuel]; [cbn in L; lia|]. destruct fuel' as [|fuel']; [cbn in L'; lia|]. cbn [length] in L, L'.
  cbn [scan_go best_match] in E. rewrite re_ign1, re_scline, NL in E. cbn [option_map] in E.
  assert ((if (c =? 59)%N || is_eol c then None else @None (str * str)) = None) as Z by now destruct ((c =? 59)%N || is_eol c). rewrite Z in E. clear Z.
  assert (is_eol c = false) as Ec. { unfold is_eol. apply orb_false_iff. split; apply N.eqb_neq; lia. } rewrite Ec in E. cbn [andb orb] in E. rewrite orb_false_r in E.
  assert (re_match (tok_re g EndSc) (c :: s) = if (c =? 59)%N then Some ([c], s) else None) as Es by (cbn [tok_re]; unfold is; rewrite re_chr, N.eqb_sym; reflexivity). rewrite Es in E.
  destruct ((c =? 32) || (c =? 9))%N eqn:B.
  - assert (c <> 59%N /\ c <> 35%N) as [C1 C2] by (apply orb_prop in B; destruct B as [B|B]; apply N.eqb_eq in B; lia).
    rewrite re_ign2_none in E by now apply N.eqb_neq. apply N.eqb_neq in C1. rewrite C1 in E. cbn [ignored tmem existsb tok_eqb orb] in E. change (ignored Ign1) with true in E. cbn iota in E.
    destruct (IH P N1 fuel fuel' ltac:(lia) ltac:(lia) t m r E) as (A1 & A2 & A3 & (w & A4)). split; [exact A1|]. split; [exact A2|]. split; [|exists (c :: w); cbn; now rewrite A4].
    apply N.eqb_neq in C1. rewrite flex_drop by assumption. exact A3.
  - destruct (N.eqb_spec c 35) as [->|C2].
    + (* a comment that goes on to the end *)
      exfalso. change (35 =? 59)%N with false in E. cbn iota in E.
      assert (re_match (tok_re g Ign2) (35%N :: s) = Some (35%N :: s, [])) as I2.
      { cbn [tok_re]. rewrite re_alt.
        assert (re_match (rseq [is 35; RStar rdot; one_of [10; 13]%N; RNot (is 59)]) (35%N :: s) = None) as ->.
        { pose proof (re_match_lang (rseq [is 35; RStar rdot; one_of [10%N; 13%N]; RNot (is 59)]) (35%N :: s)) as L0. destruct (re_match (rseq [is 35; RStar rdot; one_of [10%N; 13%N]; RNot (is 59)]) (35%N :: s)) as [[a b]|]; [|reflexivity]. exfalso. destruct L0 as [E0 L0]. cbn [rseq] in L0.
          destruct L0 as (c1 & c2 & -> & (x & -> & X) & (l & c4 & -> & _ & (c5 & c6 & -> & (y & -> & Y) & _))). cbn [app] in E0. injection E0 as _ E0. rewrite <- !app_assoc in E0.
          assert (In y s) as K by (rewrite E0; apply in_or_app; right; now left). cbn [existsb] in Y. rewrite orb_false_r in Y. apply orb_prop in Y. destruct Y as [Y|Y]; apply N.eqb_eq in Y; subst y; [contradiction|]. specialize (P _ K). lia. }
        unfold is. rewrite re_seq_chr. change (35 =? 35)%N with true. cbn iota. unfold rdot. rewrite re_star_chr. rewrite <- (app_nil_r s) at 1. rewrite span_prefix; [reflexivity| |exact I].
        apply Forall_forall. intros x Hx. apply negb_true_iff, N.eqb_neq. intros ->. contradiction. }
      rewrite I2 in E. change (ignored Ign2) with true in E. cbn iota in E. destruct fuel; cbn [scan_go] in E; destruct G as [-> | ->]; discriminate E.
    + rewrite re_ign2_none in E by now apply N.eqb_neq. destruct (N.eqb_spec c 59) as [->|C1]; [|discriminate E]. change (ignored EndSc) with false in E. cbn iota in E. injection E as <- <- <-.
      split; [reflexivity|]. split; [reflexivity|]. split; [now apply flex_semi|]. now exists [].
Qed.
Theorem text_token g s t m r : g = G10 \/ g = G11 -> plain_text s -> first_is 35 s = false -> first_is 10 s = false -> scan g [ScLine; EndSc] s = Ret (t, m, r) ->
  flex_scan Alltext s = Ret (Some t, m, after t Alltext, r)
  /\ (t = ScLine /\ s = m ++ r /\ (exists c a n, m = c :: a ++ repeat 10%N (S n) /\ c <> 59%N /\ c <> 10%N /\ ~ In 10%N a) /\ first_is 10 r = false
      \/ t = EndSc /\ m = [59%N] /\ (s = 59%N :: r \/ ~ In 10%N s /\ exists w, s = w ++ 59%N :: r)).
Proof.
  intros G P H35 H10 E. unfold scan in E. rewrite (text_accepted g G) in E. unfold flex_scan.
  destruct s as [|c s]. { exfalso. destruct G as [-> | ->]; discriminate E. }
  cbn [first_is] in H35, H10. apply plain_cons in P. destruct P as [Pc P]. apply N.eqb_neq in H10. apply N.eqb_neq in H35.
  destruct (N.eq_dec c 59) as [->|C].
  - cbn [length scan_go best_match] in E. rewrite re_ign1, re_scline in E. rewrite re_ign2_none in E by reflexivity.
    change ((59 =? 32) || (59 =? 9))%N with false in E. change (is_eol 59) with false in E. change (59 =? 59)%N with true in E. cbn [andb orb] in E.
    assert (re_match (tok_re g EndSc) (59%N :: s) = Some ([59%N], s)) as Es by reflexivity. rewrite Es in E. change (ignored EndSc) with false in E. cbn iota in E. injection E as <- <- <-.
    cbn [length]. split; [now apply flex_semi|]. right. split; [reflexivity|]. split; [reflexivity|]. now left.
  - assert (is_eol c = false) as Ec. { unfold is_eol. apply orb_false_iff. split; apply N.eqb_neq; lia. }
    destruct (line_end s) as [[m1 r1]|] eqn:L.
    + destruct (line_end_plain s m1 r1 P L) as (a & n & Em1 & Na & Es1 & Fr).
      assert (1 <= length m1) as L1. { rewrite Em1, app_length, repeat_length. lia. }
      cbn [length scan_go best_match] in E. rewrite re_ign1, re_scline in E. rewrite re_ign2_none in E by now apply N.eqb_neq. rewrite Ec in E.
      apply N.eqb_neq in C. rewrite C in E. rewrite L in E. cbn [andb orb option_map pre fst snd app] in E. rewrite orb_false_r in E.
      assert (re_match (tok_re g EndSc) (c :: s) = None) as Es by (cbn [tok_re]; unfold is; rewrite re_chr, N.eqb_sym, C; reflexivity). rewrite Es in E.
      assert ((t, m, r) = (ScLine, c :: m1, r1)) as K.
      { destruct ((c =? 32) || (c =? 9))%N.
        - cbn [length] in E. assert (1 <? S (length m1) = true) as B by (apply Nat.ltb_lt; lia). rewrite B in E. change (ignored ScLine) with false in E. cbn iota in E. injection E as <- <- <-. reflexivity.
        - change (ignored ScLine) with false in E. cbn iota in E. injection E as <- <- <-. reflexivity. }
      injection K as -> -> ->. split.
      * cbn [length]. apply flex_line; try assumption. unfold not_in. cbn [existsb]. rewrite C. unfold is_eol in Ec. apply orb_false_iff in Ec. destruct Ec as [E1 E2]. now rewrite E1, E2.
      * left. split; [reflexivity|]. split; [cbn [app]; now rewrite <- Es1|]. split; [|exact Fr]. exists c, a, n. split; [now rewrite Em1|]. apply N.eqb_neq in C. now split; [|split].
    + assert (~ In 10%N (c :: s)) as N0. { intros [K|K]; [now subst|]. now apply (line_end_none s L P) in K. }
      assert (plain_text (c :: s)) as P0 by (apply plain_cons; now split).
      destruct (last_line g (c :: s) G P0 N0 (length (c :: s)) (length (c :: s)) (le_n _) (le_n _) t m r E) as (-> & -> & F & (w & Ew)).
      split; [exact F|]. right. split; [reflexivity|]. split; [reflexivity|]. right. split; [exact N0|now exists w].
Qed.
