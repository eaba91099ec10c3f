(** The scanner picks names, words, headings and values. *)
From Coq Require Import String Ascii List NArith PeanoNat Bool Lia ZifyBool ZifyN ZifyNat.
From Verif Require Import PyBase PyFacts RegexModel RegexFacts FoldModel ScanModel ReadModel ParseModel
  ScanFacts ScanSpec ScanProofs ScanProofs2 ScanProofs3 TextProofs TextProofs2 ParseSpec GrammarSpec WholeSpec WholeProofs WholeProofs2.
Import ListNotations.
Open Scope nat_scope.

Lemma name_over_span g s : name_over g s -> match s with [] => True | c :: _ => name_char g c = false end.
Proof. trivial. Qed.
Lemma pick_name g R m s : place g R -> In DataName R -> readable_name g m -> name_over g s -> picked g R DataName m s.
Proof.
  intros P H (r & -> & Hne & Hr) Hs. apply (pick_alone g R DataName (u "_" ++ r) s 95%N r); auto.
  - destruct g; cbn; tauto.
  - unfold matches. rewrite re_name. cbn [u app N.eqb Pos.eqb]. rewrite (span_prefix _ r s Hr) by exact Hs. destruct r; [congruence|reflexivity].
  - intros t' Hr' Hp Hn NE. left. cbn [u app]. destruct g; cbn in Hr'; repeat (destruct Hr' as [<-|Hr']; [try congruence; apply re_none; reflexivity|]); destruct Hr'.
Qed.

(** Words that start with d or s. *)
Lemma head_others g t c s : In c [100; 68; 115; 83]%N -> In t [Ign1; Ign2; LBlock; DataName; TripleQ; SingleQ; StartSc; OSquare; OCurl; Comma; CSquare; CCurl] ->
  re_match (tok_re g t) (c :: s) = None.
Proof.
  intros Hc Ht. apply re_none.
  - destruct g; cbn in Ht; repeat (destruct Ht as [<-|Ht]; [reflexivity|]); destruct Ht.
  - cbn in Hc, Ht. repeat (destruct Hc as [<-|Hc]; [destruct g; repeat (destruct Ht as [<-|Ht]; [reflexivity|]); destruct Ht|]). destruct Hc.
Qed.
Lemma data_save s c x : s = c :: x -> (c = 100 \/ c = 68)%N -> forall g t, t = SaveHeading \/ t = SaveEnd -> re_match (tok_re g t) s = None.
Proof. intros -> Hc g t [->| ->]; apply re_none; destruct g, Hc as [->| ->]; reflexivity. Qed.
Lemma save_data s c x : s = c :: x -> (c = 115 \/ c = 83)%N -> forall g, re_match (tok_re g DataHeading) s = None.
Proof. intros -> Hc g; apply re_none; destruct g, Hc as [->| ->]; reflexivity. Qed.
Lemma reserved_from w m s : In w [u "data_"; u "save_"] -> lower m = w -> reserved_start (m ++ s) = true.
Proof.
  intros Hw E. pose proof (starts_lower_app w m s E) as X. unfold reserved_start. destruct Hw as [<-|[<-|[]]]; rewrite X; rewrite ?orb_true_r; reflexivity.
Qed.
Lemma heading_match W w n s p : Forall (fun c => word_char c = true) W -> lower w = lower W -> n <> [] -> Forall (fun c => p c = true) n ->
  match s with [] => True | c :: _ => p c = false end ->
  re_match (RSeq (word_ci W) (rplus (RChr p))) ((w ++ n) ++ s) = Some (w ++ n, s).
Proof.
  intros HW E Hn Hp Hs. rewrite re_word_plus by exact HW. rewrite <- app_assoc. rewrite (starts_lower_app (lower W) w (n ++ s) E).
  destruct (word_cut W w (n ++ s) E) as [-> ->]. rewrite (span_prefix p n s Hp) by exact Hs. destruct n; [congruence|]. reflexivity.
Qed.
Lemma pick_heading g R m s : place g R -> In DataHeading R -> (exists w n, m = w ++ n /\ lower w = u "data_" /\ readable_heading g n) -> name_over g s -> picked g R DataHeading m s.
Proof.
  intros P H (w & n & -> & Ew & Hn & Hc) Hs.
  destruct (word_first 100%N (u "ata_") _ Ew) as (c & x & -> & Hcc & Ex); [lia|]. assert (c = 100 \/ c = 68)%N as Hc2 by lia. clear Hcc.
  apply (pick_alone g R DataHeading ((c :: x) ++ n) s c (x ++ n)); auto.
  - destruct g; cbn; tauto.
  - unfold matches. cbn [tok_re]. apply heading_match; auto. words.
  - intros t' Hr Hp Hne NE. left.
    destruct (tok_eq_dec t' Value1) as [->|N1].
    { apply (value1_reserved g _ c ((x ++ n) ++ s)); [reflexivity| |unfold quote; lia]. rewrite <- app_assoc. apply (reserved_from (u "data_")); [cbn; tauto|exact Ew]. }
    destruct (tok_eq_dec t' SaveHeading) as [->|N2]; [apply (data_save _ c ((x ++ n) ++ s)); auto|].
    destruct (tok_eq_dec t' SaveEnd) as [->|N3]; [apply (data_save _ c ((x ++ n) ++ s)); auto|].
    apply head_others; [cbn; destruct Hc2 as [->| ->]; tauto|]. cbn in Hr |- *. intuition congruence.
Qed.
Lemma pick_save g R m s : place g R -> In SaveHeading R -> (exists w n, m = w ++ n /\ lower w = u "save_" /\ readable_heading g n) -> name_over g s -> picked g R SaveHeading m s.
Proof.
  intros P H (w & n & -> & Ew & Hn & Hc) Hs.
  destruct (word_first 115%N (u "ave_") _ Ew) as (c & x & Em & Hcc & Ex); [lia|]. assert (c = 115 \/ c = 83)%N as Hc2 by lia. clear Hcc.
  apply (pick_alone g R SaveHeading (w ++ n) s c (x ++ n)); auto.
  - destruct g; cbn; tauto.
  - now subst.
  - unfold matches. cbn [tok_re]. apply heading_match; auto. words.
  - intros t' Hr Hp Hne NE.
    destruct (tok_eq_dec t' SaveEnd) as [->|N3].
    { right. exists w, (n ++ s). cbn [tok_re]. rewrite re_word by words. rewrite <- app_assoc.
      pose proof (starts_lower_app (u "save_") w (n ++ s) Ew) as X. change (lower (u "SAVE_")) with (u "save_"). rewrite X.
      destruct (word_cut (u "SAVE_") w (n ++ s) Ew) as [-> ->]. split; [reflexivity|]. rewrite app_length. destruct n; [congruence|cbn; lia]. }
    left. subst w.
    destruct (tok_eq_dec t' Value1) as [->|N1].
    { apply (value1_reserved g _ c ((x ++ n) ++ s)); [reflexivity| |unfold quote; lia]. rewrite <- app_assoc. apply (reserved_from (u "save_")); [cbn; tauto|exact Ew]. }
    destruct (tok_eq_dec t' DataHeading) as [->|N2]; [apply (save_data _ c ((x ++ n) ++ s)); auto|].
    apply head_others; [cbn; destruct Hc2 as [->| ->]; tauto|]. cbn in Hr |- *. intuition congruence.
Qed.
Lemma pick_save_end g R m s : place g R -> In SaveEnd R -> lower m = u "save_" -> name_over g s -> picked g R SaveEnd m s.
Proof.
  intros P H Ew Hs.
  destruct (word_first 115%N (u "ave_") _ Ew) as (c & x & Em & Hcc & Ex); [lia|]. assert (c = 115 \/ c = 83)%N as Hc2 by lia. clear Hcc.
  apply (pick_alone g R SaveEnd m s c x); auto.
  - destruct g; cbn; tauto.
  - unfold matches. cbn [tok_re]. rewrite re_word by words. pose proof (starts_lower_app (u "save_") m s Ew) as X. change (lower (u "SAVE_")) with (u "save_"). rewrite X.
    destruct (word_cut (u "SAVE_") m s Ew) as [-> ->]. reflexivity.
  - intros t' Hr Hp Hne NE. left.
    destruct (tok_eq_dec t' SaveHeading) as [->|N3].
    { cbn [tok_re]. rewrite re_word_plus by words. destruct (word_cut (u "SAVE_") m s Ew) as [-> ->].
      rewrite span_false by exact Hs. destruct (starts_with _ _); reflexivity. }
    subst m.
    destruct (tok_eq_dec t' Value1) as [->|N1].
    { apply (value1_reserved g _ c (x ++ s)); [reflexivity| |unfold quote; lia]. apply (reserved_from (u "save_")); [cbn; tauto|exact Ew]. }
    destruct (tok_eq_dec t' DataHeading) as [->|N2]; [apply (save_data _ c (x ++ s)); auto|].
    apply head_others; [cbn; destruct Hc2 as [->| ->]; tauto|]. cbn in Hr |- *. intuition congruence.
Qed.

(** loop_ comes before values in the list of patterns. *)
Lemma best_keep g ts s t m r : (forall t' m' r', In t' ts -> matches g t' s m' r' -> length m' <= length m) -> best_match g ts s (Some (t, m, r)) = Some (t, m, r).
Proof.
  induction ts as [|x ts IH]; intros H; [reflexivity|]. cbn [best_match]. destruct (re_match (tok_re g x) s) as [[m0 r0]|] eqn:E.
  - specialize (H x m0 r0 (or_introl eq_refl) E) as L. destruct (length m <? length m0) eqn:F; [apply Nat.ltb_lt in F; lia|]. apply IH. intros t' m' r' Hi. apply H. now right.
  - apply IH. intros t' m' r' Hi. apply H. now right.
Qed.
Lemma best_from_first g b a s t m r : (forall t', In t' b -> re_match (tok_re g t') s = None) -> matches g t s m r ->
  (forall t' m' r', In t' a -> matches g t' s m' r' -> length m' <= length m) -> best_match g (b ++ t :: a) s None = Some (t, m, r).
Proof.
  intros Hb M Ha. induction b as [|x b IH].
  - cbn [app best_match]. unfold matches in M. rewrite M. now apply best_keep.
  - cbn [app best_match]. rewrite (Hb x (or_introl eq_refl)). apply IH. intros t' Hi. apply Hb. now right.
Qed.
Lemma patterns_loop g : exists b a, patterns g = b ++ LBlock :: a /\ incl b [Colon; Comma; Ign1; Ign2].
Proof.
  destruct g; [exists [Ign1; Ign2]|exists [Ign1; Ign2]|exists [Colon; Ign1; Ign2]|exists [Colon; Comma; Ign1; Ign2]]; eexists;
    (split; [reflexivity|intros x Hx; cbn in Hx |- *; tauto]).
Qed.
Lemma pick_loop g R m s : place g R -> In LBlock R -> lower m = u "loop_" -> value_over g s -> picked g R LBlock m s.
Proof.
  intros P H Ew Hs. unfold picked. pose proof (place_nonempty g R P) as Hne. pose proof (fun t => place_rivals g R t P) as PR.
  destruct (patterns_loop g) as (b & a & Ep & Hb).
  assert (accepted g R = filter (fun t => tmem t R || ignored t) b ++ LBlock :: filter (fun t => tmem t R || ignored t) a) as Ea.
  { unfold accepted. destruct R as [|y R]; [congruence|]. rewrite Ep. apply filter_mid. apply orb_true_iff. left. now apply tmem_In. }
  destruct (word_first 108%N (u "oop_") _ Ew) as (c & x & Em & Hcc & Ex); [lia|]. assert (c = 108 \/ c = 76)%N as Hc2 by lia. clear Hcc.
  rewrite Ea in PR |- *. apply best_from_first.
  - intros t' Hi. assert (In t' rivals) as Hr by (apply (PR t'); apply in_or_app; now left). apply filter_In in Hi. destruct Hi as [Hi _]. apply Hb in Hi.
    assert (t' <> Colon) as NC by (intros ->; cbn in Hr; intuition discriminate). subst m. cbn [app].
    cbn in Hi. destruct Hi as [<-|[<-|[<-|[<-|[]]]]]; [congruence| | |]; apply re_none; try reflexivity; destruct Hc2 as [->| ->]; reflexivity.
  - unfold matches. cbn [tok_re]. rewrite re_word by words. pose proof (starts_lower_app (u "loop_") m s Ew) as X. change (lower (u "LOOP_")) with (u "loop_"). rewrite X.
    destruct (word_cut (u "LOOP_") m s Ew) as [-> ->]. reflexivity.
  - intros t' m' r' Hi M'. assert (In t' rivals) as Hr by (apply (PR t'); apply in_or_app; right; now right). unfold matches in M'.
    destruct (tok_eq_dec t' End) as [->|NE]; [apply end_match in M'; subst; cbn; lia|].
    destruct (tok_eq_dec t' LBlock) as [->|NL].
    { cbn [tok_re] in M'. rewrite re_word in M' by words. destruct (word_cut (u "LOOP_") m s Ew) as [E1 E2]. rewrite E1, E2 in M'. destruct (starts_with _ _); [|discriminate].
      injection M' as <- <-. lia. }
    destruct (tok_eq_dec t' Value1) as [->|N1].
    + assert (re_match (re_plain g) (m ++ s) = Some (m', r')) as M2.
      { destruct g; cbn [tok_re] in M'; rewrite ?re_alt in M'; try exact M'; destruct (re_match (re_plain _) (m ++ s)) as [y|]; try exact M';
        subst m; cbn [app] in M'; rewrite !re_none in M' by (try reflexivity; destruct Hc2 as [->| ->]; reflexivity); discriminate. }
      rewrite re_plain_match in M2. destruct (reserved_start (m ++ s)); [discriminate|]. subst m. cbn [app] in M2.
      destruct (plain_first g c); [|discriminate]. injection M2 as <- <-. cbn [length]. apply le_n_S.
      assert (Forall (fun d => plain_next g d = true) x) as Hx.
      { clear -Ex. assert (Forall (fun d => is_space d = false /\ ~ In d (not_inside g)) x) as F.
        { assert (length x = 4) as L by (rewrite <- (lower_length x), Ex; reflexivity).
          assert (forall d, In d x -> In (lower_char d) (u "oop_")) as K by (intros d Hd; rewrite <- Ex; unfold lower; now apply in_map).
          apply Forall_forall. intros d Hd. specialize (K d Hd).
          assert (In d (u "oOpP_")) as K2.
          { unfold lower_char in K. destruct ((65 <=? d) && (d <=? 90))%N eqn:E; cbn in K |- *; lia. }
          clear -K2. destruct g; cbn in K2; repeat (destruct K2 as [<-|K2]; [split; [reflexivity|cbn; intuition discriminate]|]); destruct K2. }
        revert F. apply Forall_impl. intros d [A B]. now apply inside_plain. }
      rewrite (span_prefix _ x s Hx) by (apply over_follows; exact Hs). cbn. lia.
    + exfalso. subst m. cbn [app] in M'. rewrite re_none in M'; [discriminate| |].
      * destruct g; cbn in Hr; repeat (destruct Hr as [<-|Hr]; [try congruence; reflexivity|]); destruct Hr.
      * destruct g; cbn in Hr; repeat (destruct Hr as [<-|Hr]; [try congruence; destruct Hc2 as [->| ->]; reflexivity|]); destruct Hr.
Qed.
