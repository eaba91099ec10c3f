(** Blanks and comments, for both scanners. *)
From Coq Require Import String Ascii List NArith PeanoNat Bool Lia.
From Verif Require Import PyBase PyFacts RegexModel RegexFacts RegexSpec RegexProofs ScanModel ScanFacts ScanSpec ScanProofs ScanProofs2 ScanProofs3 ScanProofs4 ReadModel ParseModel FlexModel FlexSpec FlexProofs.
Import ListNotations.
Open Scope nat_scope.

(** ** What is left after blanks and comments; [cm]: within a comment *)
Fixpoint strip (cm : bool) (s : str) : str :=
  match s with
  | [] => []
  | c :: s' =>
      if (c =? 10)%N then if first_is 59 s' then s else strip false s'
      else if cm then strip true s'
      else if (c =? 35)%N then strip true s'
      else if ((c =? 32) || (c =? 9))%N then strip false s'
      else s
  end.
Lemma strip_comment l r : ~ In 10%N l -> strip true (l ++ r) = strip true r.
Proof.
  induction l as [|c l IH]; intros H; [reflexivity|]. cbn [app strip]. destruct (N.eqb_spec c 10) as [->|N0]; [exfalso; apply H; now left|].
  apply IH. intros K. apply H. now right.
Qed.
Lemma strip_blanks l r : Forall (fun c => existsb (N.eqb c) [9; 32]%N = true) l -> strip false (l ++ r) = strip false r.
Proof.
  induction 1 as [|c l H _ IH]; [reflexivity|]. cbn [app strip]. cbn [existsb] in H. rewrite orb_false_r in H.
  apply orb_prop in H. destruct H as [H|H]; apply N.eqb_eq in H; subst c; exact IH.
Qed.
Lemma strip_line r : match r with [] => True | c :: _ => c = 10%N end -> strip true r = strip false r.
Proof. destruct r as [|c r]; [reflexivity|]. intros ->. reflexivity. Qed.
Lemma strip_nl r : first_is 59 r = false -> strip false (10%N :: r) = strip false r.
Proof. intros H. cbn [strip]. change (10 =? 10)%N with true. cbn iota. now rewrite H. Qed.

(** ** The first scanner *)
Lemma star_dot l t : lang (RStar rdot) l t -> ~ In 10%N l.
Proof. intros H K. apply lang_star in H. rewrite Forall_forall in H. specialize (H _ K). discriminate H. Qed.
Lemma py_ignored g t m r : ignored t = true -> matches g t (m ++ r) m r -> plain_text (m ++ r) -> strip false (m ++ r) = strip false r.
Proof.
  intros I M P. unfold ignored in I. apply tmem_In in I. destruct I as [<-|[<-|[]]]; unfold matches in M.
  - rewrite re_ign1 in M. destruct (m ++ r) as [|c s] eqn:E; [discriminate|]. destruct (_ || _) eqn:B in M; [|discriminate]. injection M as <- <-.
    clear E. cbn [app strip]. apply orb_prop in B. destruct B as [B|B].
    + destruct (N.eqb_spec c 10) as [->|N0]; [discriminate B|]. destruct (N.eqb_spec c 35) as [->|N1]; [discriminate B|]. now rewrite B.
    + apply andb_prop in B. destruct B as [B1 B2]. apply plain_cons in P. destruct P as [P _]. unfold is_eol in B1. apply orb_prop in B1.
      assert (c = 10%N) as -> by (destruct B1 as [B1|B1]; apply N.eqb_eq in B1; lia). cbn. destruct (first_is 59 s); [discriminate|reflexivity].
  - cbn [tok_re] in M. rewrite re_alt in M. destruct (re_match _ (m ++ r)) as [[m1 r1]|] eqn:E1 in M.
    + injection M as -> ->. pose proof (re_match_lang (rseq [is 35; RStar rdot; one_of [10%N; 13%N]; RNot (is 59)]) (m ++ r)) as L0. rewrite E1 in L0. destruct L0 as [_ L]. cbn [rseq] in L. destruct L as (c1 & c2 & -> & (x & -> & X) & (l & c4 & -> & L & (c5 & c6 & -> & (y & -> & Y) & (-> & NS)))).
      apply N.eqb_eq in X. subst x. apply star_dot in L. cbn [app] in *. rewrite <- !app_assoc in *. cbn [app] in *.
      assert (y = 10%N) as ->.
      { cbn [existsb] in Y. rewrite orb_false_r in Y. apply orb_prop in Y. destruct Y as [Y|Y]; apply N.eqb_eq in Y; [exact Y|]. exfalso. specialize (P y). subst y. destruct P as [P|[P|P]]; try lia. right. apply in_or_app. right. now left. }
      change (strip false (35%N :: l ++ 10%N :: r)) with (strip true (l ++ 10%N :: r)). rewrite strip_comment by exact L.
      change (strip true (10%N :: r)) with (strip false (10%N :: r)). apply strip_nl. destruct r as [|d r]; [reflexivity|]. cbn [first_is].
      destruct (N.eqb_spec d 59) as [->|N0]; [|reflexivity]. exfalso. apply (NS [59%N] r); [reflexivity|]. exists 59%N. now split.
    + destruct (m ++ r) as [|c s]; [discriminate M|]. unfold is in M. rewrite re_seq_chr in M. destruct (35 =? c)%N eqn:E; [|discriminate]. apply N.eqb_eq in E. subst c.
      unfold rdot in M. rewrite re_star_chr in M. cbn [option_map pre fst snd app] in M. injection M as <- <-.
      change (strip false (35%N :: s)) with (strip true s). rewrite (span_eq (fun c => negb (c =? 10)%N) s) at 1. rewrite strip_comment.
      * apply strip_line. destruct (snd (span _ s)) as [|d x] eqn:E; [exact I|]. apply span_stop in E. apply negb_false_iff in E. now apply N.eqb_eq in E.
      * intros K. pose proof (span_all (fun c => negb (c =? 10)%N) s) as F. rewrite Forall_forall in F. specialize (F _ K). discriminate F.
Qed.
Lemma py_skipped g ts w r : skipped g ts w r -> plain_text (w ++ r) -> strip false (w ++ r) = strip false r.
Proof.
  induction 1 as [|t m w r W I N _ IH]; intros P; [reflexivity|]. rewrite <- app_assoc in P |- *.
  rewrite (py_ignored g t m (w ++ r) I (wins_matches _ _ _ _ _ _ W) P). apply IH. now apply plain_app in P.
Qed.
(** Where a token starts nothing is skipped. *)
Lemma py_token g R s t m r : g = G10 \/ g = G11 -> scan g R s = Ret (t, m, r) -> R <> [] -> ~ In ScLine R -> plain_text s ->
  strip false s = m ++ r /\ strip false (m ++ r) = m ++ r /\ In t R /\ wins g (accepted g R) (m ++ r) t m r /\ plain_text (m ++ r).
Proof.
  intros G E NR NS P. pose proof (scan_total g R s) as T. rewrite E in T. destruct T as (w & -> & Sk & W & I).
  pose proof (py_skipped _ _ _ _ Sk P) as K. apply plain_app in P. destruct P as [_ P].
  assert (In t R) as HR.
  { destruct W as (b & a & Ea & _). assert (In t (accepted g R)) as A by (rewrite Ea; apply in_or_app; right; now left).
    apply accepted_In in A; [|exact NR]. destruct A as [_ [A|A]]; [exact A|congruence]. }
  assert (strip false (m ++ r) = m ++ r) as Q.
  { destruct m as [|c x].
    - (* only the end is empty *)
      destruct r as [|c r]; [reflexivity|]. exfalso.
      assert (t = End) as ->.
      { pose proof (wins_matches _ _ _ _ _ _ W) as M. unfold matches in M. cbn [app] in M.
        assert (nullable (tok_re g t) = true) as Nl.
        { apply (rmatch_nil_nullable _ (c :: r) (c :: r)). unfold re_match in M. destruct (rmatch (tok_re g t) (c :: r)) as [|z l]; [discriminate|]. injection M as ->. now left. }
        destruct W as (b & a & Ea & _). assert (In t (accepted g R)) as A by (rewrite Ea; apply in_or_app; right; now left).
        apply accepted_In in A; [|exact NR]. destruct A as [A _].
        destruct G as [-> | ->]; cbn in A; repeat (destruct A as [<-|A]; [try reflexivity; discriminate Nl|]); destruct A. }
      pose proof (wins_matches _ _ _ _ _ _ W) as M. unfold matches, re_match in M. cbn [app tok_re rmatch] in M.
      assert (c :: r = [10%N]) as E2. { destruct r as [|d r]; [|discriminate M]. destruct (N.eqb_spec c 10) as [->|]; [reflexivity|discriminate M]. }
      rewrite E2 in *. clear M. destruct W as (b & a & Ea & _ & Wb & Wa).
      assert (In Ign1 (accepted g R)) as A by (apply accepted_In; [exact NR|]; split; [destruct G as [-> | ->]; now left|now right]).
      assert (matches g Ign1 [10%N] [10%N] []) as M1 by (unfold matches; rewrite re_ign1; reflexivity).
      rewrite Ea in A. apply in_app_or in A. destruct A as [A|[A|A]]; [specialize (Wb _ _ _ A M1); cbn in Wb; lia|discriminate A|specialize (Wa _ _ _ A M1); cbn in Wa; lia].
    - destruct (token_start g R _ t (c :: x) r c x E) as [A B]; [intros ->; contradiction|reflexivity|]. cbn [app strip].
      destruct (N.eqb_spec c 10) as [->|N0].
      + pose proof (B (or_introl eq_refl)) as ->. pose proof (wins_matches _ _ _ _ _ _ W) as M. unfold matches in M. cbn [app] in M. rewrite re_startsc in M. change (10 =? 10)%N with true in M. cbn iota in M.
        destruct (x ++ r) as [|d y]; [discriminate|]. cbn [first_is]. destruct (d =? 59)%N; [reflexivity|discriminate].
      + destruct (N.eqb_spec c 35) as [->|N1]; [exfalso; apply A; cbn; tauto|]. destruct (N.eqb_spec c 32) as [->|N2]; [exfalso; apply A; cbn; tauto|].
        destruct (N.eqb_spec c 9) as [->|N3]; [exfalso; apply A; cbn; tauto|]. reflexivity. }
  split; [rewrite K; exact Q|]. split; [exact Q|]. split; [exact HR|]. split; [exact W|exact P].
Qed.
