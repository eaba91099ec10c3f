(** Every token that is set out as it should be is found by the scanner. *)
From Coq Require Import String Ascii List NArith PeanoNat Bool Lia ZifyBool ZifyN ZifyNat.
From Verif Require Import PyBase PyFacts RegexModel RegexFacts FoldModel ScanModel ReadModel ParseModel
  ScanFacts ScanSpec ScanProofs ScanProofs2 ScanProofs3 TextProofs TextProofs2 ParseSpec GrammarSpec WholeSpec.
Import ListNotations.
Open Scope nat_scope.

(** ** Blanks and comments *)
Definition normal : list tok := [LBlock; DataName; SaveHeading; SaveEnd; DataHeading; End; Value1; TripleQ; SingleQ; StartSc; OSquare; OCurl; Comma; CSquare; CCurl; Colon].
Lemma not_eols x : ~ In 10%N x -> ~ In 13%N x -> Forall (fun c => is_eol c = false) x.
Proof.
  intros H1 H2. apply Forall_forall. intros c Hc. unfold is_eol. apply orb_false_iff. split; apply N.eqb_neq; intros ->; tauto.
Qed.
Lemma star_upto_two p b a c r : Forall (fun x => p x = true) a -> p 13%N = true -> p c = false ->
  (forall x t, In x a -> rmatch b (x :: t) = []) ->
  rmatch (RSeq (RStar (RChr p)) b) (a ++ 13%N :: c :: r) = map (pre (a ++ [13%N])) (rmatch b (c :: r)) ++ map (pre a) (rmatch b (13%N :: c :: r)).
Proof.
  intros Ha H13 Hc Hb. rewrite rmatch_seq, rmatch_star_chr. induction Ha as [|x a Hx Ha IH].
  - cbn [app chr_star]. rewrite H13, Hc. cbn [map app flat_map fst snd pre]. now rewrite app_nil_r.
  - cbn [app chr_star]. rewrite Hx, flat_map_app. cbn [flat_map fst snd]. rewrite (Hb x _ (or_introl eq_refl)). cbn [map app].
    rewrite app_nil_r, flat_map_map.
    transitivity (map (pre [x]) (flat_map (fun cr => map (pre (fst cr)) (rmatch b (snd cr))) (chr_star p (a ++ 13%N :: c :: r)))).
    + rewrite map_flat_map. apply flat_map_ext. intros [y z]. cbn [pre fst snd]. now rewrite pre_pre.
    + rewrite IH; [|intros y t Hy; apply Hb; now right]. rewrite map_app, !pre_pre. reflexivity.
Qed.
Lemma re_ign2_crlf g a r : Forall (fun c => is_eol c = false) a -> first_is 59 r = false ->
  re_match (tok_re g Ign2) (35%N :: a ++ 13%N :: 10%N :: r) = Some (35%N :: a ++ [13; 10]%N, r).
Proof.
  intros Ha Hr. cbn [tok_re rseq]. rewrite re_alt. unfold is at 1 3. rewrite !re_seq_chr. cbn [N.eqb Pos.eqb].
  assert (Forall (fun c => negb (c =? 10)%N = true) a) as Hd
    by (eapply Forall_impl; [|exact Ha]; intros c Hc; unfold is_eol in Hc; lia).
  assert (re_match (RSeq (RStar rdot) (RSeq (one_of [10; 13]%N) (RNot (is 59)))) (a ++ 13%N :: 10%N :: r)
          = Some (a ++ [13; 10]%N, r)) as ->; [|reflexivity].
  unfold re_match, rdot. rewrite star_upto_two; [|exact Hd|reflexivity|reflexivity|].
  - unfold one_of. rewrite !rmatch_seq_chr. cbn [existsb N.eqb Pos.eqb orb]. pose proof (re_not_semi r) as H. unfold re_match in H. rewrite Hr in H.
    rewrite hd_app, !hd_map_pre, H. cbn [option_map]. unfold pre. cbn [fst snd app]. rewrite <- app_assoc. reflexivity.
  - intros x t Hx. unfold one_of. rewrite rmatch_seq_chr. rewrite Forall_forall in Ha. specialize (Ha x Hx). unfold is_eol in Ha.
    cbn [existsb]. now rewrite orb_false_r, Ha.
Qed.
Lemma star_upto_end p b a : Forall (fun x => p x = true) a -> (forall x t, In x a -> rmatch b (x :: t) = []) -> rmatch b [] = [] ->
  rmatch (RSeq (RStar (RChr p)) b) a = [].
Proof.
  intros Ha Hb Hn. rewrite rmatch_seq, rmatch_star_chr. induction Ha as [|x a Hx Ha IH].
  - cbn. now rewrite Hn.
  - cbn [chr_star]. rewrite Hx, flat_map_app. cbn [flat_map fst snd]. rewrite (Hb x _ (or_introl eq_refl)). cbn [map app].
    rewrite app_nil_r, flat_map_map. apply flat_map_nil_all. intros [y z] Hi. cbn [pre fst snd].
    assert (rmatch b z = []) as ->; [|reflexivity].
    pose proof (IH (fun y t Hy => Hb y t (or_intror Hy))) as IH'. destruct (rmatch b z) as [|e l] eqn:E; [reflexivity|]. exfalso.
    assert (In (y ++ fst e, snd e) (flat_map (fun cr => map (pre (fst cr)) (rmatch b (snd cr))) (chr_star p a))) as X.
    { apply in_flat_map. exists (y, z). split; [exact Hi|]. cbn [fst snd]. rewrite E. now left. }
    rewrite IH' in X. exact X.
Qed.
Lemma re_ign2_end g a : Forall (fun c => is_eol c = false) a -> re_match (tok_re g Ign2) (35%N :: a) = Some (35%N :: a, []).
Proof.
  intros Ha. cbn [tok_re rseq]. rewrite re_alt. unfold is at 1 3. rewrite !re_seq_chr. cbn [N.eqb Pos.eqb].
  assert (Forall (fun c => negb (c =? 10)%N = true) a) as Hd
    by (eapply Forall_impl; [|exact Ha]; intros c Hc; unfold is_eol in Hc; lia).
  assert (re_match (RSeq (RStar rdot) (RSeq (one_of [10; 13]%N) (RNot (is 59)))) a = None) as ->.
  { unfold re_match, rdot. rewrite star_upto_end; [reflexivity|exact Hd| |reflexivity].
    intros x t Hx. unfold one_of. rewrite rmatch_seq_chr. rewrite Forall_forall in Ha. specialize (Ha x Hx). unfold is_eol in Ha.
    cbn [existsb]. now rewrite orb_false_r, Ha. }
  unfold rdot. rewrite re_star_chr. pose proof (span_prefix (fun c => negb (c =? 10)%N) a [] Hd I) as E. rewrite app_nil_r in E. rewrite E. reflexivity.
Qed.

(** What a token or the end of the text begins with. *)
Definition begins (r : str) : Prop :=
  match r with
  | 10%N :: s => first_is 59 s = true
  | 13%N :: s => firstn 2 s = [10; 59]%N
  | _ => True
  end.
Section Skip.
Variables (g : grammar) (ts : list tok).
Hypothesis Hi1 : In Ign1 ts.
Hypothesis Hi2 : In Ign2 ts.
Hypothesis Hn : forall t, In t ts -> In t (Ign1 :: Ign2 :: normal).
Lemma comment_wins s m r : re_match (tok_re g Ign2) (35%N :: s) = Some (m, r) -> m <> [] -> wins g ts (35%N :: s) Ign2 m r.
Proof using Hi1 Hi2 Hn.
  intros M Hm. apply best_wins, best_longest; [exact Hi2|exact M|]. intros t m' r' Ht Hne M'.
  apply Hn in Ht. unfold matches in M'. destruct (tok_eq_dec t End) as [->|NE].
  { apply end_match in M'. subst m'. destruct m; [congruence|cbn; lia]. }
  exfalso. rewrite re_none in M'; [discriminate| |]; destruct g; cbn in Ht;
    repeat (destruct Ht as [<-|Ht]; [try congruence; reflexivity|]); destruct Ht.
Qed.
Lemma return_wins s : first_is 59 s = false -> firstn 2 s <> [10; 59]%N -> wins g ts (13%N :: s) Ign1 [13%N] s.
Proof using Hi1 Hi2 Hn.
  intros H1 H2. apply best_wins, best_longest; [exact Hi1| |].
  - unfold matches. rewrite re_ign1. cbn [is_eol N.eqb Pos.eqb orb andb]. rewrite H1. reflexivity.
  - intros t m' r' Ht Hne M'. apply Hn in Ht. unfold matches in M'. destruct (tok_eq_dec t End) as [->|NE].
    { apply end_match in M'. subst m'. cbn; lia. }
    exfalso. destruct (tok_eq_dec t StartSc) as [->|NS].
    + rewrite re_startsc in M'. cbn [N.eqb Pos.eqb] in M'. destruct s as [|d [|e s]]; try discriminate.
      destruct (d =? 10)%N eqn:Ed, (e =? 59)%N eqn:Ee; try discriminate. apply N.eqb_eq in Ed, Ee. subst. apply H2. reflexivity.
    + rewrite re_none in M'; [discriminate| |]; destruct g; cbn in Ht;
      repeat (destruct Ht as [<-|Ht]; [try congruence; reflexivity|]); destruct Ht.
Qed.
Lemma hd_first s : hd_error s <> Some 59%N -> first_is 59 s = false.
Proof using. destruct s as [|c s]; [reflexivity|]. cbn. intros H. apply N.eqb_neq. congruence. Qed.
Lemma no_scline : ~ In ScLine ts.
Proof using Hn. intros H. apply Hn in H. cbn in H. intuition discriminate. Qed.
Lemma spaced_skipped w r : begins r -> spaced w r -> skipped g ts w r.
Proof using Hi1 Hi2 Hn.
  intros Hb. remember (length w) as n eqn:En. assert (length w <= n) as L by lia. clear En. revert w L.
  induction n as [|n IH]; intros w L H; [destruct w; [constructor|cbn in L; lia]|].
  destruct H as [|c w r Hc H|w r H1 H|w r H1 H2 H|x w r H1 H2 H3 H].
  - constructor.
  - apply (sk_more g ts Ign1 [c]); [|reflexivity|discriminate|apply IH; [cbn in L; lia|exact H]].
    apply best_wins. cbn [app]. apply blank_wins; [exact Hi1|exact no_scline|unfold skippable; tauto|]. intros ->. destruct Hc; discriminate.
  - apply (sk_more g ts Ign1 [10%N]); [|reflexivity|discriminate|apply IH; [cbn in L; lia|exact H]].
    apply best_wins. cbn [app]. apply blank_wins; [exact Hi1|exact no_scline|unfold skippable; tauto|]. intros _. now apply hd_first.
  - apply (sk_more g ts Ign1 [13%N]); [|reflexivity|discriminate|apply IH; [cbn in L; lia|exact H]].
    cbn [app]. apply return_wins; [now apply hd_first|exact H2].
  - assert (length w <= n) as Lw by (cbn in L; rewrite app_length in L; lia).
    assert (forall m k, w = m ++ k -> spaced k r -> re_match (tok_re g Ign2) ((35%N :: x ++ m) ++ k ++ r) = Some (35%N :: x ++ m, k ++ r) -> skipped g ts (35%N :: x ++ w) r) as K.
    { intros m k -> Hk M. rewrite app_assoc. change (35%N :: (x ++ m) ++ k) with ((35%N :: x ++ m) ++ k).
      apply (sk_more g ts Ign2); [|reflexivity|discriminate|apply IH; [rewrite app_length in Lw; lia|exact Hk]].
      apply comment_wins; [exact M|discriminate]. }
    destruct H3 as [E|[E|(v & E & Ev)]].
    + apply app_eq_nil in E. destruct E as [-> ->]. apply (K [] []); [reflexivity|constructor|]. rewrite !app_nil_r. apply re_ign2_end. now apply not_eols.
    + destruct w as [|c w].
      * cbn [app] in *. apply (K [] []); [reflexivity|constructor|]. destruct r as [|c r]; [discriminate|]. injection E as ->. cbn [begins] in Hb.
        cbn [app]. rewrite app_nil_r. rewrite re_ign2 by now apply not_eols. rewrite Hb. reflexivity.
      * injection E as ->. inversion H as [|? ? ? Hc Hw|? ? Hs Hw| |]; subst; [destruct Hc; discriminate|].
        apply (K [10%N] w); [reflexivity|exact Hw|]. cbn [app]. rewrite <- app_assoc. cbn [app]. rewrite re_ign2 by now apply not_eols.
        rewrite hd_first by exact Hs. reflexivity.
    + destruct w as [|c w].
      * exfalso. cbn [app] in E. subst r. cbn in Hb. destruct v as [|d v]; [discriminate|]. injection Hb as ->. apply Ev. reflexivity.
      * injection E as -> E. inversion H as [|? ? ? Hc Hw| |? ? Hs Hs2 Hw|]; subst; [destruct Hc; discriminate|].
        destruct w as [|c w].
        -- exfalso. cbn [app] in E. subst r. cbn in Hb. destruct v as [|d v]; [discriminate|]. cbn in Hb. apply N.eqb_eq in Hb. subst. apply Ev. reflexivity.
        -- injection E as -> E. inversion Hw as [|? ? ? Hc Hw'|? ? Hs' Hw'| |]; subst; [destruct Hc; discriminate|].
           apply (K [13; 10]%N w); [reflexivity|exact Hw'|]. cbn [app]. rewrite <- app_assoc. cbn [app]. rewrite re_ign2_crlf; [reflexivity|now apply not_eols|].
           now apply hd_first.
Qed.
End Skip.
