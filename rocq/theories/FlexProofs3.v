(** Blanks and comments, for the compiled scanner. *)
From Coq Require Import String Ascii List NArith PeanoNat Bool Lia.
From Verif Require Import PyBase PyFacts RegexModel RegexFacts RegexSpec RegexProofs ScanModel ScanFacts ScanSpec ScanProofs ScanProofs2 ReadModel ParseModel FlexModel FlexSpec FlexProofs FlexProofs2.
Import ListNotations.
Open Scope nat_scope.

Lemma longest_sound r s m t : longest r s = Some (m, t) -> s = m ++ t /\ lang r m t.
Proof.
  intros E. unfold longest in E. pose proof (longest_fold (rmatch r s) None) as F. rewrite E in F. destruct F as ([A|A] & _); [|discriminate A]. now apply rmatch_lang in A.
Qed.
Definition full (ru : rule) : re := match r_trail ru with None => r_re ru | Some b => RSeq (r_re ru) b end.
Lemma rule_none ru c s : nullable (full ru) = false -> first_ok (full ru) c = false -> rule_match ru (c :: s) = None.
Proof. intros A B. unfold rule_match, full in *. destruct (r_trail ru); (rewrite longest_nil; [reflexivity|now apply rmatch_none]). Qed.
Lemma best_no ru rs s best : rule_match ru s = None -> best_rule (ru :: rs) s best = best_rule rs s best.
Proof. intros E. cbn [best_rule]. now rewrite E. Qed.
Lemma best_new ru rs s n m r : rule_match ru s = Some (n, m, r) -> best_rule (ru :: rs) s None = best_rule rs s (Some (r_act ru, n, m, r)).
Proof. intros E. cbn [best_rule]. now rewrite E. Qed.
Lemma best_more ru rs s n m r a n0 m0 r0 : rule_match ru s = Some (n, m, r) -> n0 < n -> best_rule (ru :: rs) s (Some (a, n0, m0, r0)) = best_rule rs s (Some (r_act ru, n, m, r)).
Proof. intros E H. cbn [best_rule]. rewrite E. apply Nat.ltb_lt in H. now rewrite H. Qed.
Lemma best_less ru rs s n m r a n0 m0 r0 : rule_match ru s = Some (n, m, r) -> n <= n0 -> best_rule (ru :: rs) s (Some (a, n0, m0, r0)) = best_rule rs s (Some (a, n0, m0, r0)).
Proof. intros E H. cbn [best_rule]. rewrite E. apply Nat.ltb_ge in H. now rewrite H. Qed.
Ltac no_rule := rewrite best_no by (apply rule_none; reflexivity).

Definition blank (c : N) : bool := existsb (N.eqb c) [9; 32]%N.
Definition spaces_rule : rule := Rule fx_spaces None ASkip.
Definition comment_rule : rule := Rule fx_comment None ASkip.
Definition eol_rule : rule := Rule fx_end_of_line (Some (none_of [59]%N)) ASkip.
Definition dot_rule : rule := Rule rdot None AError.
Lemma spaces_match s : rule_match spaces_rule s = Some (length (fst (span blank s)), fst (span blank s), snd (span blank s)).
Proof. unfold rule_match. cbn [r_trail r_re spaces_rule]. unfold fx_spaces, one_of. rewrite longest_star. fold blank. now destruct (span blank s). Qed.
Lemma comment_match s : rule_match comment_rule (35%N :: s) = Some (S (length (fst (span not_eol s))), 35%N :: fst (span not_eol s), snd (span not_eol s)).
Proof.
  unfold rule_match. cbn [r_trail r_re comment_rule]. unfold fx_comment, is. rewrite longest_cons. change (35 =? 35)%N with true. cbn iota. unfold none_of. rewrite longest_star.
  fold (not_in [10; 13]%N). fold not_eol. now destruct (span not_eol s).
Qed.
Lemma dot_match c s : c <> 10%N -> rule_match dot_rule (c :: s) = Some (1, [c], s).
Proof.
  intros H. unfold rule_match. cbn [r_trail r_re dot_rule]. unfold rdot. rewrite (longest_one _ _ ([c], s)); [reflexivity|]. cbn [rmatch]. destruct (N.eqb_spec c 10); [contradiction|reflexivity].
Qed.
Lemma dot_newline s : rule_match dot_rule (10%N :: s) = None.
Proof. reflexivity. Qed.
Lemma removelast_snoc {A} (l : list A) x : removelast (l ++ [x]) = l.
Proof. induction l as [|y l IH]; [reflexivity|]. cbn [app]. destruct (l ++ [x]) eqn:E; [now destruct l|]. rewrite <- E in IH |- *. cbn [removelast]. destruct l; [reflexivity|]. cbn [app] in *. rewrite <- IH. reflexivity. Qed.
Lemma skipn_snoc {A} (l : list A) x : skipn (length (l ++ [x]) - 1) (l ++ [x]) = [x].
Proof. rewrite app_length. cbn [length]. replace (length l + 1 - 1) with (length l) by lia. rewrite skipn_app, skipn_all, Nat.sub_diag. reflexivity. Qed.
Lemma eol_match s n m r : plain_text s -> rule_match eol_rule s = Some (n, m, r) -> s = m ++ r /\ m <> [] /\ strip false s = strip false r /\ 1 <= n.
Proof.
  intros P E. unfold rule_match in E. cbn [r_trail r_re eol_rule] in E. destruct (longest _ s) as [[M t]|] eqn:L; [|discriminate]. injection E as <- <- <-.
  apply longest_sound in L. destruct L as [-> L]. unfold fx_end_of_line in L. cbn [lang] in L.
  destruct L as (c1 & c2 & -> & (sp & c3 & -> & Sp & (cm & e & -> & Cm & Eo)) & (x & -> & X)).
  apply lang_star in Sp. rewrite <- !app_assoc in P.
  assert (e = [10%N]) as ->.
  { assert (~ In 13%N e) as N13. { intros K. assert (In 13%N (sp ++ cm ++ e ++ [x] ++ t)) as K2 by (rewrite !in_app_iff; tauto). specialize (P _ K2). lia. }
    destruct Eo as [(y & -> & Y)|[(y & -> & Y)|(a & b & -> & (y & -> & Y) & _)]]; apply N.eqb_eq in Y; subst y; [reflexivity|exfalso; apply N13; now left|exfalso; apply N13; now left]. }
  rewrite removelast_snoc, skipn_snoc. rewrite !app_length. cbn [length].
  assert (x <> 59%N) as Nx. { intros ->. discriminate X. }
  split; [rewrite <- !app_assoc; reflexivity|]. split; [intros K; apply app_eq_nil in K; destruct K as [_ K]; apply app_eq_nil in K; destruct K; discriminate|]. split; [|lia].
  rewrite <- !app_assoc. rewrite strip_blanks by exact Sp.
  assert (strip false (10%N :: x :: t) = strip false (x :: t)) as Q. { apply strip_nl. cbn. now apply N.eqb_neq. }
  destruct Cm as [Cm| ->]; [|exact Q]. destruct Cm as (a & l & -> & (y & -> & Y) & Cl). apply N.eqb_eq in Y. subst y. apply lang_star in Cl.
  etransitivity; [|exact Q]. cbn [app]. change (strip true (l ++ 10%N :: x :: t) = strip false (10%N :: x :: t)). rewrite strip_comment; [reflexivity|].
  intros K. rewrite Forall_forall in Cl. specialize (Cl _ K). discriminate Cl.
Qed.
Definition skip_of (s : str) : Prop :=
  exists n m r, best_rule initial_rules s None = Some (ASkip, n, m, r) /\ s = m ++ r /\ m <> [] /\ strip false s = strip false r.
(** After the first skipping rule that takes something. *)
Lemma skip_blank c s : blank c = true -> plain_text (c :: s) -> skip_of (c :: s).
Proof.
  intros B P. assert (c = 9%N \/ c = 32%N) as C. { unfold blank in B. cbn in B. rewrite orb_false_r in B. apply orb_prop in B. destruct B as [B|B]; apply N.eqb_eq in B; tauto. }
  unfold skip_of. set (a := fst (span blank (c :: s))). set (b := snd (span blank (c :: s))).
  assert (c :: s = a ++ b) as Eab by apply span_eq.
  assert (1 <= length a) as La. { unfold a. cbn [span]. rewrite B. destruct (span blank s). cbn. lia. }
  assert (strip false (c :: s) = strip false b) as Sb. { rewrite Eab. apply strip_blanks. apply span_all. }
  assert (forall n m r, 1 <= n -> c :: s = m ++ r -> m <> [] -> strip false (c :: s) = strip false r ->
     exists n0 m0 r0, best_rule [dot_rule] (c :: s) (Some (ASkip, n, m, r)) = Some (ASkip, n0, m0, r0) /\ c :: s = m0 ++ r0 /\ m0 <> [] /\ strip false (c :: s) = strip false r0) as Fin.
  { intros n m r H1 H2 H3 H4. exists n, m, r. split; [|tauto]. erewrite best_less; [reflexivity|apply dot_match; destruct C; lia|lia]. }
  assert (a <> []) as Na by (intros K; rewrite K in La; cbn in La; lia).
  destruct (rule_match eol_rule (c :: s)) as [[[n m] r]|] eqn:E.
  - destruct (eol_match _ _ _ _ P E) as (E1 & E2 & E3 & E4). unfold initial_rules.
    destruct (Nat.le_gt_cases n (length a)) as [Hn|Hn]; destruct C as [-> | ->]; do 7 no_rule; fold spaces_rule; rewrite (best_new spaces_rule) with (1 := spaces_match _); fold a b; no_rule; fold eol_rule;
      [rewrite (best_less _ _ _ _ _ _ _ _ _ _ E Hn)|rewrite (best_less _ _ _ _ _ _ _ _ _ _ E Hn)|rewrite (best_more _ _ _ _ _ _ _ _ _ _ E Hn)|rewrite (best_more _ _ _ _ _ _ _ _ _ _ E Hn)];
      do 5 no_rule; now apply Fin.
  - unfold initial_rules. destruct C as [-> | ->]; do 7 no_rule; fold spaces_rule; rewrite (best_new spaces_rule) with (1 := spaces_match _); fold a b; no_rule; fold eol_rule; rewrite (best_no _ _ _ _ E); do 5 no_rule; now apply Fin.
Qed.
Lemma skip_comment s : plain_text (35%N :: s) -> skip_of (35%N :: s).
Proof.
  intros P. unfold skip_of. set (a := fst (span not_eol s)). set (b := snd (span not_eol s)).
  assert (35%N :: s = (35%N :: a) ++ b) as Eab by (cbn [app]; unfold a, b; now rewrite <- span_eq).
  assert (strip false (35%N :: s) = strip false b) as Sb.
  { change (strip false (35%N :: s)) with (strip true s). unfold b. rewrite (span_eq not_eol s) at 1. rewrite strip_comment.
    - apply strip_line. destruct (snd (span not_eol s)) as [|d x] eqn:E; [exact I|]. pose proof (span_stop _ _ _ _ E) as K. rewrite not_eol_spec in K. apply negb_false_iff in K. unfold is_eol in K.
      assert (In d (35%N :: s)) as K2. { right. rewrite (span_eq not_eol s), E. apply in_or_app. right. now left. } specialize (P _ K2). apply orb_prop in K. destruct K as [K|K]; apply N.eqb_eq in K; lia.
    - intros K. pose proof (span_all not_eol s) as F. rewrite Forall_forall in F. specialize (F _ K). discriminate F. }
  assert (forall n m r, 1 <= n -> 35%N :: s = m ++ r -> m <> [] -> strip false (35%N :: s) = strip false r ->
     exists n0 m0 r0, best_rule [dot_rule] (35%N :: s) (Some (ASkip, n, m, r)) = Some (ASkip, n0, m0, r0) /\ 35%N :: s = m0 ++ r0 /\ m0 <> [] /\ strip false (35%N :: s) = strip false r0) as Fin.
  { intros n m r H1 H2 H3 H4. exists n, m, r. split; [|tauto]. erewrite best_less; [reflexivity|apply dot_match; lia|lia]. }
  unfold initial_rules. do 7 no_rule. fold spaces_rule comment_rule. rewrite (best_new spaces_rule) with (1 := spaces_match _).
  change (fst (span blank (35%N :: s))) with (@nil N). cbn [length]. erewrite best_more; [|apply comment_match|lia]. fold a b. fold eol_rule. cbn [r_act comment_rule].
  destruct (rule_match eol_rule (35%N :: s)) as [[[n m] r]|] eqn:E.
  - destruct (eol_match _ _ _ _ P E) as (E1 & E2 & E3 & E4). destruct (Nat.le_gt_cases n (S (length a))) as [Hn|Hn];
       [rewrite (best_less _ _ _ _ _ _ _ _ _ _ E Hn)|rewrite (best_more _ _ _ _ _ _ _ _ _ _ E Hn)]; do 5 no_rule; fold dot_rule; cbn [r_act eol_rule]; apply Fin; try assumption; try lia; discriminate.
  - rewrite (best_no _ _ _ _ E). do 5 no_rule. fold dot_rule. apply Fin; try assumption; try lia; discriminate.
Qed.
Definition newline_rule : rule := Rule (is 10) None ASkip.
Lemma newline_match s : rule_match newline_rule (10%N :: s) = Some (1, [10%N], s).
Proof. reflexivity. Qed.
Definition startsc_rule : rule := Rule (rseq [RAlt (is 10) (RSeq (is 13) (is 10)); is 59; RStar (RChr true_char); fx_eols]) None (ATok StartSc).
Lemma startsc_rmatch s : rmatch (r_re startsc_rule) (10%N :: s) = match s with d :: s' => if (d =? 59)%N then map (pre [10%N; 59%N]) (rmatch (RSeq (RStar (RChr true_char)) fx_eols) s') else [] | [] => [] end.
Proof.
  cbn [startsc_rule r_re rseq]. rewrite rmatch_seq_alt. unfold is. rewrite (rmatch_seq_chr (N.eqb 10)). change (10 =? 10)%N with true. cbn iota.
  rewrite rmatch_seq_assoc, (rmatch_seq_chr (N.eqb 13)). change (13 =? 10)%N with false. cbn iota. rewrite app_nil_r. rewrite (rmatch_seq_chr (N.eqb 59)). destruct s as [|d s]; [reflexivity|]. rewrite N.eqb_sym.
  destruct (N.eqb_spec d 59) as [->|]; [|reflexivity]. now rewrite pre_pre.
Qed.
Lemma skip_newline s : first_is 59 s = false -> plain_text (10%N :: s) -> skip_of (10%N :: s).
Proof.
  intros F P. unfold skip_of.
  assert (forall n m r, 1 <= n -> 10%N :: s = m ++ r -> m <> [] -> strip false (10%N :: s) = strip false r ->
     exists n0 m0 r0, best_rule [newline_rule; dot_rule] (10%N :: s) (Some (ASkip, n, m, r)) = Some (ASkip, n0, m0, r0) /\ 10%N :: s = m0 ++ r0 /\ m0 <> [] /\ strip false (10%N :: s) = strip false r0) as Fin.
  { intros n m r H1 H2 H3 H4. exists n, m, r. split; [|tauto]. erewrite best_less; [|apply newline_match|lia]. rewrite best_no by apply dot_newline. reflexivity. }
  unfold initial_rules. do 7 no_rule. fold spaces_rule. rewrite (best_new spaces_rule) with (1 := spaces_match _).
  change (fst (span blank (10%N :: s))) with (@nil N). cbn [length]. no_rule. fold eol_rule startsc_rule newline_rule dot_rule. cbn [r_act spaces_rule].
  assert (rule_match startsc_rule (10%N :: s) = None) as Ns.
  { unfold rule_match. cbn [r_trail startsc_rule]. rewrite longest_nil; [reflexivity|]. etransitivity; [apply startsc_rmatch|]. destruct s as [|d s]; [reflexivity|]. cbn [first_is] in F. now rewrite F. }
  destruct (rule_match eol_rule (10%N :: s)) as [[[n m] r]|] eqn:E.
  - destruct (eol_match _ _ _ _ P E) as (E1 & E2 & E3 & E4). rewrite (best_more _ _ _ _ _ _ _ _ _ _ E) by lia. rewrite best_no by exact Ns. do 3 no_rule. cbn [r_act eol_rule]. now apply Fin.
  - rewrite (best_no _ _ _ _ E). rewrite best_no by exact Ns. do 3 no_rule. exists 1, [10%N], s. split; [|split; [reflexivity|split; [discriminate|now apply strip_nl]]].
    erewrite best_more; [|apply newline_match|lia]. rewrite best_no by apply dot_newline. reflexivity.
Qed.
Lemma flex_skips s : plain_text s -> strip false s <> s -> skip_of s.
Proof.
  intros P H. destruct s as [|c s]; [contradiction|]. cbn [strip] in H. destruct (N.eqb_spec c 10) as [->|N0].
  - destruct (first_is 59 s) eqn:F; [contradiction|]. now apply skip_newline.
  - destruct (N.eqb_spec c 35) as [->|N1]; [now apply skip_comment|]. destruct ((c =? 32) || (c =? 9))%N eqn:B; [|contradiction].
    apply skip_blank; [|exact P]. unfold blank. cbn. rewrite orb_false_r, orb_comm. exact B.
Qed.
(** What follows an action. *)
Definition acted (c : start) (a : action) (m r : str) : outcome (option tok * str * start * str) :=
  match a with
  | ATok t => Ret (Some t, m, after t c, r)
  | ASkip => Raise OutOfFuel
  | AQuote q => Ret (Some Value1, fst (quoted q m), c, snd (quoted q m) ++ r)
  | AError => Ret (None, m, c, [])
  end.
Lemma flex_reach fuel : forall s, length s <= fuel -> plain_text s ->
  match strip false s with
  | [] => flex_go fuel Initial s = Ret (Some End, [], Initial, [])
  | s' => forall a n m r, best_rule initial_rules s' None = Some (a, n, m, r) -> a <> ASkip -> flex_go fuel Initial s = acted Initial a m r
  end.
Proof.
  induction fuel as [|f IH]; intros s L P.
  { destruct s; [reflexivity|cbn in L; lia]. }
  destruct s as [|c s]; [reflexivity|].
  assert (strip false (c :: s) = c :: s \/ strip false (c :: s) <> c :: s) as [Q|Q].
  { destruct (list_eq_dec N.eq_dec (strip false (c :: s)) (c :: s)); tauto. }
  - rewrite Q. intros a n m r B NS. cbn [flex_go rules]. rewrite B. destruct a; try reflexivity. contradiction.
  - destruct (flex_skips _ P Q) as (n & m & r & B & E & Nm & Sm). rewrite Sm.
    assert (flex_go (S f) Initial (c :: s) = flex_go f Initial r) as K by (cbn [flex_go rules]; now rewrite B). rewrite K. apply IH.
    + rewrite E, app_length in L. destruct m; [contradiction|]. cbn in L. lia.
    + rewrite E in P. exact (proj2 (proj1 (plain_app _ _) P)).
Qed.
