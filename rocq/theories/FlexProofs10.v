(** The compiled scanner always returns a token, and loses no text before it. *)
From Coq Require Import String Ascii List NArith PeanoNat Bool Lia.
From Verif Require Import PyBase PyFacts RegexModel RegexFacts RegexSpec RegexProofs ScanModel ScanFacts ScanProofs ReadModel ParseModel FlexModel FlexSpec FlexProofs FlexProofs3 FlexProofs5.
Import ListNotations.
Open Scope nat_scope.

Lemma rule_split ru s n m r : rule_match ru s = Some (n, m, r) -> s = m ++ r /\ (r_trail ru = None -> n = length m) /\ (r_trail ru <> None -> n <= S (length m)).
Proof.
  unfold rule_match. destruct (r_trail ru) as [b|].
  - destruct (longest (RSeq (r_re ru) b) s) as [[m0 r0]|] eqn:L; [|discriminate]. intros E. injection E as <- <- <-. apply longest_sound in L. destruct L as [-> _]. split; [|split; [discriminate|]].
    + destruct m0 as [|c m0] using rev_ind; [reflexivity|]. rewrite removelast_app, app_length by discriminate. cbn [removelast length]. replace (length m0 + 1 - 1) with (length m0) by lia. rewrite skipn_app, skipn_all, Nat.sub_diag. cbn [skipn app]. now rewrite app_nil_r, <- app_assoc.
    + intros _. destruct m0 as [|c m0] using rev_ind; [cbn; lia|]. rewrite removelast_app, app_length by discriminate. cbn [removelast length]. rewrite app_nil_r. lia.
  - destruct (longest (r_re ru) s) as [[m0 r0]|] eqn:L; [|discriminate]. intros E. injection E as <- <- <-. apply longest_sound in L. destruct L as [-> _]. split; [reflexivity|]. split; [reflexivity|contradiction].
Qed.
(** The rule that is used. *)
Lemma best_from rs s : forall best a n m r, best_rule rs s best = Some (a, n, m, r) -> best = Some (a, n, m, r) \/ exists ru, In ru rs /\ r_act ru = a /\ rule_match ru s = Some (n, m, r).
Proof.
  induction rs as [|ru rs IH]; intros best a n m r E; cbn [best_rule] in E; [now left|]. apply IH in E. destruct E as [E|(ru' & H & E)]; [|right; exists ru'; split; [now right|exact E]].
  destruct (rule_match ru s) as [[[n1 m1] r1]|] eqn:M; [|now left].
  destruct best as [[[[a0 n0] m0] r0]|].
  - destruct (n0 <? n1); [|now left]. right. exists ru. split; [now left|]. injection E as <- <- <- <-. now split.
  - right. exists ru. split; [now left|]. injection E as <- <- <- <-. now split.
Qed.
Lemma best_least rs s : forall best, (forall ru n m r, In ru rs -> rule_match ru s = Some (n, m, r) -> exists a n0 m0 r0, best_rule rs s best = Some (a, n0, m0, r0) /\ n <= n0)
  /\ (forall a n m r, best = Some (a, n, m, r) -> exists a' n0 m0 r0, best_rule rs s best = Some (a', n0, m0, r0) /\ n <= n0).
Proof.
  induction rs as [|ru rs IH]; intros best; cbn [best_rule]; (split; [|intros a n m r ->]).
  - intros ? ? ? ? [].
  - now exists a, n, m, r.
  - set (b := match rule_match ru s with Some (n, m, r) => _ | None => _ end). destruct (IH b) as [H1 H2]. intros ru' n m r [<-|K] E; [|exact (H1 _ _ _ _ K E)].
    assert (exists a0 n0 m0 r0, b = Some (a0, n0, m0, r0) /\ n <= n0) as (a0 & n0 & m0 & r0 & Eb & Ln).
    { unfold b. rewrite E. destruct best as [[[[a0 n0] m0] r0]|]; [|exists (r_act ru), n, m, r; split; [reflexivity|lia]].
      destruct (n0 <? n) eqn:B; [exists (r_act ru), n, m, r; split; [reflexivity|lia]|]. apply Nat.ltb_ge in B. exists a0, n0, m0, r0. now split. }
    destruct (H2 _ _ _ _ Eb) as (a1 & n1 & m1 & r1 & E1 & L1). exists a1, n1, m1, r1. split; [exact E1|lia].
  - destruct (IH (match rule_match ru s with Some (n1, m1, r1) => if n <? n1 then Some (r_act ru, n1, m1, r1) else Some (a, n, m, r) | None => Some (a, n, m, r) end)) as [_ H2].
    destruct (rule_match ru s) as [[[n1 m1] r1]|]; [|exact (H2 _ _ _ _ eq_refl)]. destruct (n <? n1) eqn:B; [|exact (H2 _ _ _ _ eq_refl)]. apply Nat.ltb_lt in B.
    destruct (H2 _ _ _ _ eq_refl) as (a2 & n2 & m2 & r2 & E2 & L2). exists a2, n2, m2, r2. split; [exact E2|lia].
Qed.
Lemma eol_two s n m r : rule_match eol_rule s = Some (n, m, r) -> m <> [].
Proof.
  unfold rule_match. cbn [r_trail eol_rule r_re]. destruct (longest (RSeq fx_end_of_line (none_of [59%N])) s) as [[m0 r0]|] eqn:L; [|discriminate]. intros E. injection E as <- <- <-. apply longest_sound in L. destruct L as [_ L].
  destruct L as (c1 & c2 & -> & L1 & (x & -> & _)). rewrite removelast_app by discriminate. cbn [removelast]. rewrite app_nil_r. destruct L1 as (a & b & -> & _ & (d & e & -> & _ & Eo)).
  destruct Eo as [(y & -> & _)|[(y & -> & _)|(y & z & -> & (y' & -> & _) & _)]]; intros K; apply app_eq_nil in K; destruct K as [_ K]; apply app_eq_nil in K; destruct K as [_ K]; discriminate K.
Qed.
Lemma some_rule c s : s <> [] -> exists a n m r, best_rule (rules c) s None = Some (a, n, m, r) /\ s = m ++ r /\ m <> [].
Proof.
  intros Ns. destruct s as [|k s]; [contradiction|].
  assert (exists ru m r, In ru (rules c) /\ rule_match ru (k :: s) = Some (1, m, r)) as (ru & m & r & Hr & Mr).
  { destruct c.
    - destruct (N.eq_dec k 10) as [->|N0].
      + exists newline_rule, [10%N], s. split; [unfold rules, initial_rules; fold newline_rule; cbn; tauto|apply newline_match].
      + exists dot_rule, [k], s. split; [unfold rules, initial_rules; fold dot_rule; cbn; tauto|now apply dot_match].
    - exists (Rule (RChr (fun _ => true)) None ASkip), [k], s. split; [cbn; tauto|]. unfold rule_match. cbn [r_trail r_re]. rewrite (longest_one _ _ ([k], s)); reflexivity. }
  destruct (best_least (rules c) (k :: s) None) as [H _]. destruct (H ru 1 m r Hr Mr) as (a & n & m' & r' & E & L). exists a, n, m', r'. split; [exact E|].
  apply best_from in E. destruct E as [E|(ru' & H' & _ & M')]; [discriminate|]. destruct (rule_split _ _ _ _ _ M') as (S1 & S2 & S3). split; [exact S1|]. intros ->.
  destruct (r_trail ru') as [b|] eqn:T; [|rewrite S2 in L by reflexivity; cbn in L; lia].
  assert (ru' = eol_rule) as ->. { destruct c; cbn [rules initial_rules alltext_rules In] in H'; decompose [or] H'; subst; try discriminate T; try reflexivity; contradiction. }
  now apply (eol_two _ _ _ _ M').
Qed.
Lemma quote_all q m : m = fst (quote_end q m) ++ snd (quote_end q m).
Proof. induction m as [|c m IH]; [reflexivity|]. cbn [quote_end]. destruct (_ && _); [reflexivity|]. cbn [fst snd app]. now rewrite <- IH. Qed.
Lemma flex_total_go fuel : forall c s, length s <= fuel -> exists t m c' r, flex_go fuel c s = Ret (t, m, c', r) /\ exists w, s = w ++ m ++ r /\ (m = [] -> t = Some End) \/ t = None.
Proof.
  induction fuel as [|fuel IH]; intros c s L.
  - destruct s; [|cbn in L; lia]. exists (Some End), [], c, []. split; [reflexivity|]. exists []. now left.
  - destruct s as [|k s]; [exists (Some End), [], c, []; split; [reflexivity|]; exists []; now left|].
    destruct (some_rule c (k :: s)) as (a & n & m & r & B & E & Nm); [discriminate|]. cbn [flex_go]. rewrite B.
    assert (length r <= fuel) as Lr. { apply (f_equal (@length N)) in E. rewrite app_length in E. destruct m as [|d m]; [contradiction|]. cbn [length] in E, L. lia. }
    destruct a as [t| |q|].
    + exists (Some t), m, (after t c), r. split; [reflexivity|]. exists []. left. split; [exact E|contradiction].
    + destruct (IH c r Lr) as (t & m' & c' & r' & F & w & W). exists t, m', c', r'. split; [exact F|]. exists (m ++ w). destruct W as [[W1 W2]|W]; [left|now right]. split; [rewrite E, W1; now rewrite <- app_assoc|exact W2].
    + exists (Some Value1), (fst (quoted q m)), c, (snd (quoted q m) ++ r). split; [reflexivity|]. exists []. left. destruct m as [|d m]; [contradiction|]. cbn [quoted fst snd app]. split; [|discriminate].
      rewrite E. cbn [app]. f_equal. rewrite app_assoc. now rewrite <- quote_all.
    + exists None, m, c, []. split; [reflexivity|]. exists []. now right.
Qed.

(** ** What is skipped outside a text field *)
Lemma gap_app a b : gap a -> gap b -> gap (a ++ b).
Proof. intros A B. induction A as [|c w H _ IH|l w H1 H2 _ IH]; [exact B|now constructor|]. cbn [app]. rewrite <- app_assoc. now constructor. Qed.
Lemma gap_blanks l : Forall (fun c => blank c = true) l -> gap l.
Proof. induction 1 as [|c l H _ IH]; constructor; [|exact IH]. unfold blank in H. cbn [existsb] in H. rewrite orb_false_r in H. apply orb_prop in H. destruct H as [H|H]; apply N.eqb_eq in H; subst; cbn; tauto. Qed.
Lemma gap_note c t : lang fx_comment c t -> gap c.
Proof.
  intros (a & l & -> & (x & -> & X) & L). apply N.eqb_eq in X. subst x. apply lang_star in L. cbn [app]. rewrite <- (app_nil_r l). rewrite Forall_forall in L. constructor; [| |constructor].
  - intros K. specialize (L _ K). discriminate L.
  - intros K. specialize (L _ K). discriminate L.
Qed.
Lemma gap_eol c t : lang fx_eol c t -> gap c.
Proof.
  intros [(x & -> & X)|[(x & -> & X)|(a & b & -> & (x & -> & X) & (y & -> & Y))]]; apply N.eqb_eq in X; subst x; try (apply N.eqb_eq in Y; subst y); cbn [app]; repeat (constructor; [cbn; tauto|]); constructor.
Qed.
Lemma skip_gap ru s n m r : In ru initial_rules -> r_act ru = ASkip -> rule_match ru s = Some (n, m, r) -> gap m.
Proof.
  intros I A M. assert (ru = spaces_rule \/ ru = comment_rule \/ ru = eol_rule \/ ru = newline_rule) as D.
  { unfold initial_rules in I. cbn [In] in I. decompose [or] I; subst; try discriminate A; try contradiction; tauto. }
  unfold rule_match in M. destruct D as [->|[->|[->| ->]]]; cbn [r_trail r_re spaces_rule comment_rule eol_rule newline_rule] in M.
  - destruct (longest fx_spaces s) as [[m0 r0]|] eqn:L; [|discriminate]. injection M as _ <- _. apply longest_sound in L. destruct L as [_ L]. apply lang_star in L. apply gap_blanks. exact L.
  - destruct (longest fx_comment s) as [[m0 r0]|] eqn:L; [|discriminate]. injection M as _ <- _. apply longest_sound in L. exact (gap_note _ _ (proj2 L)).
  - destruct (longest (RSeq fx_end_of_line (none_of [59%N])) s) as [[m0 r0]|] eqn:L; [|discriminate]. injection M as _ <- _. apply longest_sound in L. destruct L as [_ L].
    destruct L as (c1 & c2 & -> & L1 & (x & -> & _)). rewrite removelast_app by discriminate. cbn [removelast]. rewrite app_nil_r. destruct L1 as (a & b & -> & La & (d & e & -> & Ld & Eo)).
    apply lang_star in La. apply gap_app; [apply gap_blanks; exact La|]. apply gap_app; [|exact (gap_eol _ _ Eo)]. destruct Ld as [Ld| ->]; [exact (gap_note _ _ Ld)|constructor].
  - destruct (longest (is 10) s) as [[m0 r0]|] eqn:L; [|discriminate]. injection M as _ <- _. apply longest_sound in L. destruct L as [_ (x & -> & X)]. apply N.eqb_eq in X. subst x. constructor; [cbn; tauto|constructor].
Qed.
Lemma flex_step f c k s : flex_go (S f) c (k :: s) =
  match best_rule (rules c) (k :: s) None with
  | Some (ATok t, _, m, r) => Ret (Some t, m, after t c, r)
  | Some (ASkip, _, _, r) => flex_go f c r
  | Some (AQuote q, _, m, r) => Ret (Some Value1, fst (quoted q m), c, snd (quoted q m) ++ r)
  | Some (AError, _, m, _) => Ret (None, m, c, [])
  | None => Raise OutOfFuel
  end.
Proof. reflexivity. Qed.
Lemma flex_gap fuel : forall s t m c r, flex_go fuel Initial s = Ret (Some t, m, c, r) -> exists w, s = w ++ m ++ r /\ gap w /\ c = after t Initial.
Proof.
  induction fuel as [|fuel IH]; intros s t m c r E; (destruct s as [|k s]; [injection E as <- <- <- <-; exists []; split; [reflexivity|]; split; [constructor|reflexivity]|]); [discriminate E|].
  rewrite flex_step in E. pose proof (best_from (rules Initial) (k :: s) None) as B. destruct (best_rule (rules Initial) (k :: s) None) as [[[[a n] m1] r1]|]; [|discriminate E].
  destruct (B a n m1 r1 eq_refl) as [B'|(ru & Hr & Ha & B')]; [discriminate B'|]. clear B. destruct (rule_split _ _ _ _ _ B') as [Es _]. destruct a as [t'| |q|].
  - injection E as <- <- <- <-. exists []. split; [exact Es|]. split; [constructor|reflexivity].
  - destruct (IH _ _ _ _ _ E) as (w & Ew & Gw & Ec). exists (m1 ++ w). split; [rewrite Es, Ew; now rewrite <- app_assoc|]. split; [|exact Ec]. apply gap_app; [exact (skip_gap _ _ _ _ _ Hr Ha B')|exact Gw].
  - injection E as <- <- <- <-. exists []. split; [|split; [constructor|reflexivity]]. cbn [app]. destruct m1 as [|d m1]; [cbn [quoted fst snd app]; exact Es|]. cbn [quoted fst snd app]. rewrite Es. cbn [app]. f_equal. rewrite app_assoc. now rewrite <- quote_all.
  - discriminate E.
Qed.
(** Inside a text field. *)
Lemma flex_inside fuel : forall s t m c r, flex_go fuel Alltext s = Ret (t, m, c, r) -> exists t0 w, t = Some t0 /\ s = w ++ m ++ r /\ In t0 [ScLine; EndSc; End] /\ c = after t0 Alltext.
Proof.
  induction fuel as [|fuel IH]; intros s t m c r E; (destruct s as [|k s]; [injection E as <- <- <- <-; exists End, []; split; [reflexivity|]; split; [reflexivity|]; split; [cbn; tauto|reflexivity]|]); [discriminate E|].
  rewrite flex_step in E. pose proof (best_from (rules Alltext) (k :: s) None) as B. destruct (best_rule (rules Alltext) (k :: s) None) as [[[[a n] m1] r1]|]; [|discriminate E].
  destruct (B a n m1 r1 eq_refl) as [B'|(ru & Hr & Ha & B')]; [discriminate B'|]. clear B. destruct (rule_split _ _ _ _ _ B') as [Es _]. destruct a as [t'| |q|].
  - injection E as <- <- <- <-. exists t', []. split; [reflexivity|]. split; [exact Es|]. split; [|reflexivity]. destruct Hr as [<-|[<-|[<-|[]]]]; cbn [r_act] in Ha; try discriminate Ha; injection Ha as <-; cbn; tauto.
  - destruct (IH _ _ _ _ _ E) as (t0 & w & E0 & Ew & Ht & Ec). exists t0, (m1 ++ w). split; [exact E0|]. split; [rewrite Es, Ew; now rewrite <- app_assoc|]. now split.
  - exfalso. destruct Hr as [<-|[<-|[<-|[]]]]; discriminate Ha.
  - exfalso. destruct Hr as [<-|[<-|[<-|[]]]]; discriminate Ha.
Qed.
