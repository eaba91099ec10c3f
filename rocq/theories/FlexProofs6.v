(** The two scanners, token by token. *)
From Coq Require Import String Ascii List NArith PeanoNat Bool Lia.
From Verif Require Import PyBase PyFacts RegexModel RegexFacts RegexSpec RegexProofs ScanModel ScanFacts ScanSpec ScanProofs ScanProofs2 ScanProofs3 ReadModel ParseModel FlexModel FlexSpec FlexProofs FlexProofs2 FlexProofs3 FlexProofs4 FlexProofs5.
Import ListNotations.
Open Scope nat_scope.

(** ** Lines of text *)
Lemma eols_lang e t : lang fx_eols e t -> e <> [] /\ Forall (fun c => is_eol c = true) e.
Proof.
  assert (forall c t, lang (RAlt (RSeq (is 13) (is 10)) (RAlt (is 13) (is 10))) c t -> c <> [] /\ Forall (fun c => is_eol c = true) c) as B.
  { intros c t0 [(a & b & -> & (x & -> & X) & (y & -> & Y))|[(x & -> & X)|(x & -> & X)]]; apply N.eqb_eq in X; subst x; try (apply N.eqb_eq in Y; subst y); (split; [discriminate|repeat constructor]). }
  assert (forall b t, reps (lang (RAlt (RSeq (is 13) (is 10)) (RAlt (is 13) (is 10)))) b t -> Forall (fun c => is_eol c = true) b) as Rs.
  { intros b t0 H. induction H as [|c1 c2 t1 L1 _ IH]; [constructor|]. apply Forall_app. split; [exact (proj2 (B _ _ L1))|exact IH]. }
  intros (a & b & -> & La & Lb). destruct (B _ _ La) as [Na Fa]. split; [destruct a; [contradiction|discriminate]|]. apply Forall_app. split; [exact Fa|exact (Rs _ _ Lb)].
Qed.
Lemma eols_newlines n t : lang fx_eols (repeat 10%N (S n)) t.
Proof.
  exists [10%N], (repeat 10%N n). split; [reflexivity|]. split; [right; right; exists 10%N; now split|].
  induction n as [|n IH]; [constructor|]. change (repeat 10%N (S n)) with ([10%N] ++ repeat 10%N n). constructor; [right; right; exists 10%N; now split|exact IH].
Qed.
Lemma plain_eols e : plain_text e -> Forall (fun c => is_eol c = true) e -> e = repeat 10%N (length e).
Proof.
  induction e as [|c e IH]; intros P F; [reflexivity|]. apply plain_cons in P. destruct P as [Pc P]. inversion F as [|? ? F1 F2]. subst. cbn [length repeat]. rewrite <- IH by assumption. f_equal.
  unfold is_eol in F1. apply orb_prop in F1. destruct F1 as [F1|F1]; apply N.eqb_eq in F1; lia.
Qed.
Definition text_line : re := RSeq (RStar (RChr true_char)) fx_eols.
Lemma true_char_not_eol c : true_char c = true -> not_eol c = true.
Proof.
  unfold true_char. rewrite nonblank_name. intros H. rewrite not_eol_spec. apply negb_true_iff. unfold is_eol. apply orb_prop in H. destruct H as [H|H]; [apply orb_prop in H; destruct H as [H|H]|].
  - apply name_char1_only in H. apply orb_false_iff. split; apply N.eqb_neq; lia.
  - apply N.eqb_eq in H. now subst.
  - apply N.eqb_eq in H. now subst.
Qed.
Lemma longest_line s : plain_text s -> longest text_line s = line_end s.
Proof.
  intros P. unfold line_end. set (a := fst (span not_eol s)). set (b := snd (span not_eol s)).
  assert (s = a ++ b) as Es by apply span_eq.
  assert (forall m' t', s = m' ++ t' -> lang text_line m' t' -> exists e', m' = a ++ e' /\ b = e' ++ t' /\ e' <> [] /\ Forall (fun c => is_eol c = true) e') as U.
  { intros m' t' E (a' & e' & -> & La & Le). apply lang_star in La. apply eols_lang in Le. destruct Le as [Ne Fe]. exists e'.
    assert (span not_eol s = (a', e' ++ t')) as K.
    { rewrite E, <- app_assoc. apply span_prefix.
      - eapply Forall_impl; [|exact La]. exact true_char_not_eol.
      - destruct e' as [|c e']; [contradiction|]. cbn [app]. inversion Fe as [|? ? F1 F2]. rewrite not_eol_spec. now rewrite F1. }
    unfold a, b. rewrite K. cbn [fst snd]. split; [reflexivity|]. split; [reflexivity|]. now split. }
  pose proof (span_eq is_eol b) as Eb. pose proof (span_all is_eol b) as Fb. destruct (span is_eol b) as [[|c e] r] eqn:E; cbn [fst snd] in Eb, Fb.
  - apply longest_none. intros m' t' E1 L1. destruct (U _ _ E1 L1) as (e' & -> & Eb' & Ne & Fe). destruct e' as [|c e']; [contradiction|].
    assert (length (c :: e') <= length (fst (span is_eol b))) as K. { apply (span_max is_eol b (c :: e') t'); assumption. } rewrite E in K. cbn in K. lia.
  - assert (plain_text a /\ plain_text (c :: e)) as [Pa Pe].
    { rewrite Es, Eb in P. apply plain_app in P. destruct P as [Pa P]. apply plain_app in P. tauto. }
    apply longest_is; [rewrite <- app_assoc, <- Eb; exact Es| |].
    + exists a, (c :: e). split; [reflexivity|]. split.
      * apply lang_star. pose proof (span_all not_eol s) as Fa. fold a in Fa. rewrite Forall_forall in Fa |- *. intros x Hx. rewrite plain_true_char by now apply Pa. specialize (Fa x Hx). rewrite not_eol_spec in Fa. unfold is_eol in Fa.
        destruct (N.eqb_spec x 10) as [K|K]; [rewrite K in Fa; discriminate Fa|reflexivity].
      * rewrite (plain_eols (c :: e) Pe Fb). apply eols_newlines.
    + intros m' t' E1 L1. destruct (U _ _ E1 L1) as (e' & -> & Eb' & Ne & Fe). rewrite !app_length. apply Nat.add_le_mono_l.
      pose proof (span_max is_eol b e' t' Eb' Fe) as K. rewrite E in K. exact K.
Qed.
Lemma longest_pre a r1 r2 s1 s2 : rmatch r1 s1 = map (pre a) (rmatch r2 s2) -> longest r1 s1 = option_map (pre a) (longest r2 s2).
Proof.
  intros E. unfold longest. rewrite E.
  assert (forall l best, fold_left longer (map (pre a) l) (option_map (pre a) best) = option_map (pre a) (fold_left longer l best)) as G.
  { induction l as [|[m r] l IH]; intros best; cbn [map fold_left]; [reflexivity|]. rewrite <- IH. f_equal.
    unfold longer, pre. cbn [fst snd option_map]. destruct best as [[m0 r0]|]; [|reflexivity]. cbn [option_map fst snd]. rewrite !app_length. destruct (length m0 <? length m) eqn:B.
    - apply Nat.ltb_lt in B. destruct (_ <? _) eqn:E2; [reflexivity|]. apply Nat.ltb_ge in E2. lia.
    - apply Nat.ltb_ge in B. destruct (_ + _ <? _) eqn:E2; [|reflexivity]. apply Nat.ltb_lt in E2. lia. }
  exact (G _ None).
Qed.
Lemma startsc_match s : plain_text s -> rule_match startsc_rule (10%N :: 59%N :: s) =
  match line_end s with Some (m, r) => Some (S (S (length m)), 10%N :: 59%N :: m, r) | None => None end.
Proof.
  intros P. unfold rule_match. cbn [r_trail startsc_rule]. rewrite (longest_pre [10%N; 59%N] _ text_line _ s); [|apply startsc_rmatch].
  rewrite longest_line by exact P. destruct (line_end s) as [[m r]|]; reflexivity.
Qed.
Lemma eol_semi s : rule_match eol_rule (10%N :: 59%N :: s) = None.
Proof.
  unfold rule_match. cbn [r_trail r_re eol_rule]. rewrite longest_none; [reflexivity|]. intros m t E L. unfold fx_end_of_line in L. cbn [lang] in L.
  destruct L as (c1 & c2 & -> & (sp & c3 & -> & Sp & (cm & e & -> & Cm & Eo)) & (x & -> & X)). apply lang_star in Sp.
  destruct sp as [|c sp]; [|cbn [app] in E; injection E as <- E; inversion Sp; discriminate].
  assert (cm = []) as ->. { destruct Cm as [(a & l & -> & (y & -> & Y) & Cl)| ->]; [|reflexivity]. cbn [app] in E. injection E as <- E. discriminate Y. }
  cbn [app] in E. destruct Eo as [(y & -> & Y)|[(y & -> & Y)|(a & b & -> & (y & -> & Y) & _)]]; cbn [app] in E.
  - injection E as <- <- E. discriminate X.
  - injection E as <- <- E. discriminate X.
  - injection E as <- E. discriminate Y.
Qed.
Lemma startsc_best s m r : plain_text s -> line_end s = Some (m, r) -> best_rule initial_rules (10%N :: 59%N :: s) None = Some (ATok StartSc, S (S (length m)), 10%N :: 59%N :: m, r).
Proof.
  intros P E. pose proof (startsc_match s P) as M. rewrite E in M. unfold initial_rules. do 7 no_rule. fold spaces_rule comment_rule eol_rule startsc_rule newline_rule dot_rule.
  rewrite (best_new spaces_rule) with (1 := spaces_match _). change (fst (span blank (10%N :: 59%N :: s))) with (@nil N). cbn [length].
  rewrite best_no by (apply rule_none; reflexivity). rewrite best_no by apply eol_semi. rewrite (best_more _ _ _ _ _ _ _ _ _ _ M) by lia. do 3 no_rule.
  erewrite best_less; [|apply newline_match|lia]. rewrite best_no by apply dot_newline. reflexivity.
Qed.

(** ** Tokens outside text fields *)
Lemma span_names s : names (fst (span name_char1 s)) /\ ends_name (snd (span name_char1 s)).
Proof. split; [apply span_all|]. unfold ends_name. destruct (snd (span name_char1 s)) eqn:E; [exact I|]. now apply span_stop in E. Qed.
(** A word and what follows it up to the next blank. *)
Lemma word_names (w : string) k s m r : sw w s = true -> length (u w) = 5 -> u w = k :: tl (u w) -> (97 <= k <= 122)%N -> Forall (fun c => name_char1 c = true) (u w) ->
  m = firstn 5 s -> r = skipn 5 s -> exists c x, m = c :: x /\ s = c :: x ++ r /\ value_start c /\ names (c :: x) /\ c <> 95%N /\ length m = 5.
Proof.
  intros H L5 Ek Rk Fw -> ->. unfold sw in H. pose proof (starts_lower_length _ _ H) as Ls. rewrite L5 in Ls. destruct s as [|c s]; [cbn in Ls; lia|].
  pose proof (word_first w c k s H Ek) as Ec. destruct (letter_start c k Ec Rk) as [Vc Nc]. exists c, (firstn 4 s). split; [reflexivity|]. split; [cbn [skipn]; now rewrite firstn_skipn|]. split; [exact Vc|]. split; [|split; [exact Nc|rewrite firstn_length; lia]].
  destruct (starts_with_split _ _ H) as (z & Ez).
  assert (lower (firstn 5 (c :: s)) = u w) as El. { unfold lower in *. rewrite <- firstn_map, Ez, firstn_app, L5, Nat.sub_diag. rewrite firstn_all2 by lia. cbn. apply app_nil_r. }
  change (c :: firstn 4 s) with (firstn 5 (c :: s)). unfold names. rewrite Forall_forall in *. intros x Hx. assert (In (lower_char x) (u w)) as K by (rewrite <- El; now apply in_map).
  specialize (Fw _ K). apply name_char1_only in Fw. apply name_char1_range. unfold lower_char in Fw. destruct ((65 <=? x) && (x <=? 90))%N eqn:B; [apply andb_prop in B; destruct B as [B1 B2]; apply N.leb_le in B1, B2|]; lia.
Qed.
Lemma initial_word g R s' t m r : g = G10 \/ g = G11 -> wins g (accepted g R) s' t m r -> R <> [] -> In t [LBlock; SaveHeading; SaveEnd; DataHeading] -> (In SaveEnd R -> In SaveHeading R) -> In t R -> tok_fit g t m r ->
  exists n, best_rule initial_rules s' None = Some (ATok t, n, m, r).
Proof.
  intros G W NR T SE IR Fit. pose proof (wins_matches _ _ _ _ _ _ W) as M. unfold matches in M. pose proof (wins_split _ _ _ _ _ _ W) as Es.
  assert (name_char g = name_char1) as Ng by (destruct G as [-> | ->]; reflexivity).
  destruct T as [<-|[<-|[<-|[<-|[]]]]]; cbn [tok_re] in M.
  - rewrite re_word in M by words. change (lower (u "LOOP_")) with (u "loop_") in M. destruct (starts_with _ _) eqn:E; [|discriminate]. injection M as <- <-. 
    destruct (word_names "loop_" 108 s' (firstn 5 s') (skipn 5 s') E eq_refl eq_refl) as (c & x & Em & E1 & Vc & Nx & Nc & L5); [lia|repeat constructor|reflexivity|reflexivity|].
    exists (length (firstn 5 s')). rewrite rules_split, head_loop; [|rewrite E1; cbn [first_is]; now apply N.eqb_neq|exact E].
    cbn [tok_fit] in Fit. change (length (u "LOOP_")) with 5 in Fit |- *. rewrite E1 at 1. inversion Nx as [|? ? N1 N2]. rewrite (tail_value c x (skipn 5 s')) by assumption.
    assert (length (firstn 5 s') <? S (length x) = false) as ->; [|reflexivity]. apply Nat.ltb_ge. rewrite Em. cbn [length]. lia.
  - rewrite re_word_plus in M by words. change (lower (u "SAVE_")) with (u "save_") in M. destruct (starts_with _ _) eqn:E; [|discriminate]. change (length (u "SAVE_")) with 5 in M. rewrite Ng in M.
    destruct (word_names "save_" 115 s' (firstn 5 s') (skipn 5 s') E eq_refl eq_refl) as (c & x & Em & E1 & Vc & Nx & Nc & L5); [lia|repeat constructor|reflexivity|reflexivity|].
    pose proof (span_names (skipn 5 s')) as [Sa Sb]. pose proof (span_eq name_char1 (skipn 5 s')) as Sk.
    assert (best_rule head_rules s' None = Some (ATok SaveHeading, length m, m, r)) as Hd.
    { rewrite head_save; [|rewrite E1; cbn [first_is]; now apply N.eqb_neq|exact E]. destruct (span name_char1 (skipn 5 s')) as [[|d y] z]; [discriminate|]. injection M as <- <-. reflexivity. }
    exists (length m). rewrite rules_split, Hd. inversion Nx as [|? ? N1 N2].
    destruct (span name_char1 (skipn 5 s')) as [[|d y] z] eqn:Sp; [discriminate|]. unfold pre in M. cbn [fst snd] in M, Sa, Sb, Sk. assert (firstn 5 s' ++ d :: y = m) as <- by congruence. assert (z = r) as <- by congruence.
    rewrite E1 at 1. rewrite Sk, app_assoc. rewrite (tail_value c (x ++ d :: y) z); [|exact Vc|apply Forall_app; now split|exact Sb].
    assert (length (firstn 5 s' ++ d :: y) <? S (length (x ++ d :: y)) = false) as K; [|rewrite K; reflexivity]. apply Nat.ltb_ge. rewrite Em. cbn [app length]. lia.
  - rewrite re_word in M by words. change (lower (u "SAVE_")) with (u "save_") in M. destruct (starts_with _ _) eqn:E; [|discriminate]. change (length (u "SAVE_")) with 5 in M. assert (firstn 5 s' = m) as <- by congruence. assert (skipn 5 s' = r) as <- by congruence.
    destruct (word_names "save_" 115 s' (firstn 5 s') (skipn 5 s') E eq_refl eq_refl) as (c & x & Em & E1 & Vc & Nx & Nc & L5); [lia|repeat constructor|reflexivity|reflexivity|].
    (* no longer heading *)
    assert (fst (span name_char1 (skipn 5 s')) = []) as Sp.
    { destruct (span name_char1 (skipn 5 s')) as [[|d y] z] eqn:Sp; [reflexivity|]. exfalso.
      assert (matches g SaveHeading s' (firstn 5 s' ++ d :: y) z) as MH. { unfold matches. cbn [tok_re]. rewrite re_word_plus by words. change (lower (u "SAVE_")) with (u "save_"). rewrite E. change (length (u "SAVE_")) with 5. rewrite Ng, Sp. reflexivity. }
      assert (In SaveHeading (accepted g R)) as A by (apply accepted_In; [exact NR|]; split; [destruct G as [-> | ->]; cbn; tauto|left; now apply SE]).
      destruct W as (b & a & Ea & _ & Wb & Wa). rewrite Ea in A. apply in_app_or in A.
      destruct A as [A|[A|A]]; [specialize (Wb _ _ _ A MH); rewrite app_length in Wb; cbn [length] in Wb; lia|discriminate A|specialize (Wa _ _ _ A MH); rewrite app_length in Wa; cbn [length] in Wa; lia]. }
    exists (length (firstn 5 s')). rewrite rules_split, head_save; [|rewrite E1; cbn [first_is]; now apply N.eqb_neq|exact E].
    pose proof (span_names (skipn 5 s')) as [_ Sb]. pose proof (span_eq name_char1 (skipn 5 s')) as Sk. rewrite Sp in Sk. cbn [app] in Sk. rewrite <- Sk in Sb.
    destruct (span name_char1 (skipn 5 s')) as [[|d y] z]; [|discriminate Sp]. rewrite E1 at 1. inversion Nx as [|? ? N1 N2]. rewrite (tail_value c x (skipn 5 s')) by assumption.
    assert (length (firstn 5 s') <? S (length x) = false) as ->; [|reflexivity]. apply Nat.ltb_ge. rewrite Em. cbn [length]. lia.
  - rewrite re_word_plus in M by words. change (lower (u "DATA_")) with (u "data_") in M. destruct (starts_with _ _) eqn:E; [|discriminate]. change (length (u "DATA_")) with 5 in M. rewrite Ng in M.
    destruct (word_names "data_" 100 s' (firstn 5 s') (skipn 5 s') E eq_refl eq_refl) as (c & x & Em & E1 & Vc & Nx & Nc & L5); [lia|repeat constructor|reflexivity|reflexivity|].
    pose proof (span_names (skipn 5 s')) as [Sa Sb]. pose proof (span_eq name_char1 (skipn 5 s')) as Sk.
    assert (best_rule head_rules s' None = Some (ATok DataHeading, length m, m, r)) as Hd.
    { rewrite head_data; [|rewrite E1; cbn [first_is]; now apply N.eqb_neq|exact E]. destruct (span name_char1 (skipn 5 s')) as [[|d y] z]; [discriminate|]. injection M as <- <-. reflexivity. }
    exists (length m). rewrite rules_split, Hd. inversion Nx as [|? ? N1 N2].
    destruct (span name_char1 (skipn 5 s')) as [[|d y] z] eqn:Sp; [discriminate|]. unfold pre in M. cbn [fst snd] in M, Sa, Sb, Sk. assert (firstn 5 s' ++ d :: y = m) as <- by congruence. assert (z = r) as <- by congruence.
    rewrite E1 at 1. rewrite Sk, app_assoc. rewrite (tail_value c (x ++ d :: y) z); [|exact Vc|apply Forall_app; now split|exact Sb].
    assert (length (firstn 5 s' ++ d :: y) <? S (length (x ++ d :: y)) = false) as K; [|rewrite K; reflexivity]. apply Nat.ltb_ge. rewrite Em. cbn [app length]. lia.
Qed.
