(** The scanner: longest match, skipping, termination. *)
From Coq Require Import String Ascii List NArith ZArith Bool Lia ZifyBool ZifyN ZifyNat.
From Verif Require Import PyBase PyFacts RegexModel RegexFacts ScanModel ScanFacts ScanSpec ScanProofs.
Import ListNotations.
Open Scope nat_scope.

Lemma tok_eqb_eq a b : tok_eqb a b = true <-> a = b.
Proof. unfold tok_eqb. destruct (tok_eq_dec a b); split; congruence. Qed.
Lemma tmem_In t l : tmem t l = true <-> In t l.
Proof.
  unfold tmem. rewrite existsb_exists. split.
  - intros (x & Hx & E). apply tok_eqb_eq in E. now subst.
  - intros H. exists t. split; [exact H|]. now apply tok_eqb_eq.
Qed.

(** ** The best match *)
Definition beats (g : grammar) (ts : list tok) (s : str) (n : nat) : Prop :=
  forall t' m' r', In t' ts -> matches g t' s m' r' -> length m' <= n.
Lemma best_match_spec g ts s best :
  match best_match g ts s best with
  | None => best = None /\ stuck g ts s
  | Some (t, m, r) =>
      (best = Some (t, m, r) /\ beats g ts s (length m))
      \/ ((match best with Some (_, m0, _) => length m0 < length m | None => True end) /\ wins g ts s t m r)
  end.
Proof.
  revert best. induction ts as [|t ts IH]; intros best.
  - cbn [best_match]. destruct best as [[[t m] r]|].
    + left. split; [reflexivity|]. intros t' m' r' [].
    + split; [reflexivity|]. intros t m r [].
  - cbn [best_match].
    destruct (re_match (tok_re g t) s) as [[m r]|] eqn:E.
    + destruct best as [[[t0 m0] r0]|].
      * destruct (length m0 <? length m) eqn:L.
        -- specialize (IH (Some (t, m, r))). destruct (best_match g ts s (Some (t, m, r))) as [[[t1 m1] r1]|]; [|destruct IH; discriminate].
           right. destruct IH as [[H1 H2]|[H1 H2]].
           ++ injection H1 as -> -> ->. split; [lia|]. exists [], ts. repeat split; [exact E|intros ? ? ? []|exact H2].
           ++ split; [lia|]. destruct H2 as (b & a & -> & M & Hb & Ha). exists (t :: b), a.
              repeat split; [exact M| |exact Ha]. intros t' m' r' [->|Hi] Hm; [|eapply Hb; eauto].
              unfold matches in Hm. rewrite E in Hm. injection Hm as -> ->. exact H1.
        -- specialize (IH (Some (t0, m0, r0))). destruct (best_match g ts s (Some (t0, m0, r0))) as [[[t1 m1] r1]|]; [|destruct IH; discriminate].
           destruct IH as [[H1 H2]|[H1 H2]].
           ++ left. split; [exact H1|]. injection H1 as -> -> ->. intros t' m' r' [->|Hi] Hm; [|eapply H2; eauto].
              unfold matches in Hm. rewrite E in Hm. injection Hm as -> ->. lia.
           ++ right. split; [exact H1|]. destruct H2 as (b & a & -> & M & Hb & Ha). exists (t :: b), a.
              repeat split; [exact M| |exact Ha]. intros t' m' r' [->|Hi] Hm; [|eapply Hb; eauto].
              unfold matches in Hm. rewrite E in Hm. injection Hm as -> ->. lia.
      * specialize (IH (Some (t, m, r))). destruct (best_match g ts s (Some (t, m, r))) as [[[t1 m1] r1]|]; [|destruct IH; discriminate].
        right. split; [exact I|]. destruct IH as [[H1 H2]|[H1 H2]].
        -- injection H1 as -> -> ->. exists [], ts. repeat split; [exact E|intros ? ? ? []|exact H2].
        -- destruct H2 as (b & a & -> & M & Hb & Ha). exists (t :: b), a.
           repeat split; [exact M| |exact Ha]. intros t' m' r' [->|Hi] Hm; [|eapply Hb; eauto].
           unfold matches in Hm. rewrite E in Hm. injection Hm as -> ->. exact H1.
    + specialize (IH best). destruct (best_match g ts s best) as [[[t1 m1] r1]|].
      * destruct IH as [[H1 H2]|[H1 H2]].
        -- left. split; [exact H1|]. intros t' m' r' [->|Hi] Hm; [|eapply H2; eauto].
           unfold matches in Hm. congruence.
        -- right. split; [exact H1|]. destruct H2 as (b & a & -> & M & Hb & Ha). exists (t :: b), a.
           repeat split; [exact M| |exact Ha]. intros t' m' r' [->|Hi] Hm; [|eapply Hb; eauto].
           unfold matches in Hm. congruence.
      * destruct IH as [H1 H2]. split; [exact H1|]. intros t' m' r' [->|Hi] Hm; [|eapply H2; eauto].
        unfold matches in Hm. congruence.
Qed.
Lemma best_some g ts s t m r : best_match g ts s None = Some (t, m, r) -> wins g ts s t m r.
Proof.
  intros H. pose proof (best_match_spec g ts s None) as S. rewrite H in S. destruct S as [[S _]|[_ S]]; [discriminate|exact S].
Qed.
Lemma best_none g ts s : best_match g ts s None = None -> stuck g ts s.
Proof. intros H. pose proof (best_match_spec g ts s None) as S. rewrite H in S. exact (proj2 S). Qed.
Lemma wins_fun g ts s t m r t2 m2 r2 : wins g ts s t m r -> wins g ts s t2 m2 r2 -> (t, m, r) = (t2, m2, r2).
Proof.
  intros (b & a & E & M & Hb & Ha) (b2 & a2 & E2 & M2 & Hb2 & Ha2). rewrite E in E2.
  assert (t = t2) as ->.
  { destruct (app_eq_app _ _ _ _ E2) as [l [[-> H]|[-> H]]].
    - destruct l as [|x l].
      + cbn in H. injection H as -> _. reflexivity.
      + cbn in H. injection H as -> ->.
        assert (length m2 < length m) by (eapply Hb; [apply in_or_app; right; now left|exact M2]).
        assert (length m <= length m2) by (eapply Ha2; [apply in_or_app; right; now left|exact M]). lia.
    - destruct l as [|x l].
      + cbn in H. injection H as -> _. reflexivity.
      + cbn in H. injection H as -> ->.
        assert (length m < length m2) by (eapply Hb2; [apply in_or_app; right; now left|exact M]).
        assert (length m2 <= length m) by (eapply Ha; [apply in_or_app; right; now left|exact M2]). lia. }
  unfold matches in M, M2. rewrite M in M2. injection M2 as -> ->. reflexivity.
Qed.
Lemma best_wins g ts s t m r : best_match g ts s None = Some (t, m, r) <-> wins g ts s t m r.
Proof.
  split; [apply best_some|]. intros H. destruct (best_match g ts s None) as [[[t2 m2] r2]|] eqn:E.
  - apply best_some in E. f_equal. eapply wins_fun; eauto.
  - apply best_none in E. destruct H as (b & a & -> & M & _). exfalso. eapply E; [|exact M].
    apply in_or_app. right. now left.
Qed.
(** A match strictly longer than all others wins. *)
Lemma best_longest g ts s t m r : In t ts -> matches g t s m r ->
  (forall t' m' r', In t' ts -> t' <> t -> matches g t' s m' r' -> length m' < length m) ->
  best_match g ts s None = Some (t, m, r).
Proof.
  intros Hi M H. destruct (best_match g ts s None) as [[[t2 m2] r2]|] eqn:E.
  - apply best_some in E. destruct E as (b & a & -> & M2 & Hb & Ha).
    destruct (tok_eq_dec t2 t) as [->|N].
    + unfold matches in M, M2. congruence.
    + assert (length m2 < length m) by (eapply H; [apply in_or_app; right; now left|exact N|exact M2]).
      exfalso. apply in_app_or in Hi. destruct Hi as [Hi|[Hi|Hi]]; [|congruence|].
      * specialize (Hb _ _ _ Hi M). lia.
      * specialize (Ha _ _ _ Hi M). lia.
  - apply best_none in E. exfalso. eapply E; eauto.
Qed.

(** ** Ignored matches are not empty *)
Lemma ignored_nonempty g t s m r : ignored t = true -> matches g t s m r -> m <> [].
Proof.
  intros Hi M ->. unfold matches, re_match in M.
  assert (In ([], r) (rmatch (tok_re g t) s)) as H by (destruct (rmatch (tok_re g t) s); [discriminate|injection M as ->; now left]).
  apply rmatch_nil_nullable in H. destruct t; try discriminate Hi; destruct g; discriminate H.
Qed.
Lemma wins_matches g ts s t m r : wins g ts s t m r -> matches g t s m r.
Proof. intros (b & a & _ & M & _). exact M. Qed.
Lemma matches_split g t s m r : matches g t s m r -> s = m ++ r.
Proof. apply re_match_split. Qed.
Lemma wins_split g ts s t m r : wins g ts s t m r -> s = m ++ r.
Proof. intros H. eapply matches_split, wins_matches, H. Qed.

(** ** The whole scan *)
Lemma scan_go_spec fuel g ts s : length s <= fuel ->
  match scan_go fuel g ts s with
  | Ret (t, m, r) => exists w, s = w ++ m ++ r /\ skipped g ts w (m ++ r) /\ wins g ts (m ++ r) t m r /\ ignored t = false
  | Raise e => e = SyntaxErr /\ exists w r, s = w ++ r /\ skipped g ts w r /\ stuck g ts r
  end.
Proof.
  revert s. induction fuel as [|fuel IH]; intros s Hf; cbn [scan_go];
    destruct (best_match g ts s None) as [[[t m] r]|] eqn:E.
  - apply best_some in E. destruct (ignored t) eqn:Ig.
    + pose proof (ignored_nonempty _ _ _ _ _ Ig (wins_matches _ _ _ _ _ _ E)).
      pose proof (wins_split _ _ _ _ _ _ E) as ->. rewrite app_length in Hf. destruct m; [congruence|cbn in Hf; lia].
    + exists []. pose proof (wins_split _ _ _ _ _ _ E) as ->. repeat split; [constructor|exact E|exact Ig].
  - apply best_none in E. split; [reflexivity|]. exists [], s. repeat split; [constructor|exact E].
  - apply best_some in E. pose proof (wins_split _ _ _ _ _ _ E) as ->. destruct (ignored t) eqn:Ig.
    + pose proof (ignored_nonempty _ _ _ _ _ Ig (wins_matches _ _ _ _ _ _ E)) as Hm.
      assert (length r <= fuel) as Hr by (rewrite app_length in Hf; destruct m; [congruence|cbn in Hf; lia]).
      specialize (IH r Hr). destruct (scan_go fuel g ts r) as [[[t2 m2] r2]|e].
      * destruct IH as (w & -> & Hw & H1 & H2). exists (m ++ w). split; [now rewrite app_assoc|].
        split; [|split; assumption]. eapply sk_more; eauto.
      * destruct IH as (-> & w & r2 & -> & Hw & Hst). split; [reflexivity|]. exists (m ++ w), r2.
        split; [now rewrite app_assoc|]. split; [|exact Hst]. eapply sk_more; eauto.
    + exists []. repeat split; [constructor|exact E|exact Ig].
  - apply best_none in E. split; [reflexivity|]. exists [], s. repeat split; [constructor|exact E].
Qed.
Lemma skipped_go g ts w r : skipped g ts w r -> forall fuel fuel', length (w ++ r) <= fuel -> length r <= fuel' ->
  scan_go fuel g ts (w ++ r) = scan_go fuel' g ts r.
Proof.
  induction 1 as [s|t m w r Hw Hi Hm _ IH]; intros fuel fuel' Hf Hf'.
  - cbn [app] in *. revert s fuel' Hf Hf'. induction fuel as [|fuel IH]; intros s fuel' Hf Hf'; cbn [scan_go].
    + destruct s; [|cbn in Hf; lia]. destruct (best_match g ts [] None) as [[[t m] r]|] eqn:E.
      * destruct (ignored t) eqn:Ig; [|destruct fuel'; cbn [scan_go]; now rewrite E, Ig].
        apply best_some in E. pose proof (ignored_nonempty _ _ _ _ _ Ig (wins_matches _ _ _ _ _ _ E)).
        apply wins_split in E. destruct m; [congruence|discriminate].
      * destruct fuel'; cbn [scan_go]; now rewrite E.
    + destruct (best_match g ts s None) as [[[t m] r]|] eqn:E; [|destruct fuel'; cbn [scan_go]; now rewrite E].
      destruct (ignored t) eqn:Ig; [|destruct fuel'; cbn [scan_go]; now rewrite E, Ig].
      pose proof (best_some _ _ _ _ _ _ E) as W.
      pose proof (ignored_nonempty _ _ _ _ _ Ig (wins_matches _ _ _ _ _ _ W)). pose proof (wins_split _ _ _ _ _ _ W) as ->.
      rewrite app_length in Hf, Hf'. destruct m; [congruence|]. cbn [length] in *.
      destruct fuel'; [lia|]. cbn [scan_go]. rewrite E, Ig. apply IH; lia.
  - rewrite <- app_assoc in *. apply best_wins in Hw. destruct m as [|c m]; [congruence|].
    destruct fuel; [cbn in Hf; lia|]. cbn [scan_go]. rewrite Hw, Hi. apply IH; [|exact Hf'].
    rewrite app_length in Hf. cbn in Hf. lia.
Qed.

(** ** Restriction sets *)
Lemma accepted_In g restrict t : restrict <> [] ->
  In t (accepted g restrict) <-> In t (patterns g) /\ (In t restrict \/ ignored t = true).
Proof.
  intros H. unfold accepted. destruct restrict as [|x l]; [congruence|]. rewrite filter_In.
  rewrite orb_true_iff, tmem_In. tauto.
Qed.

(** ** Skipping blanks *)
Lemma blank_wins g ts c s : In Ign1 ts -> ~ In ScLine ts -> skippable c -> (c = 10%N -> first_is 59 s = false) ->
  best_match g ts (c :: s) None = Some (Ign1, [c], s).
Proof.
  intros Hi Hn Hc Hs. apply best_longest; [exact Hi| |].
  - unfold matches. rewrite re_ign1. destruct Hc as [->|[->| ->]]; try reflexivity. cbn. rewrite Hs by reflexivity. reflexivity.
  - intros t m r Ht Hne M. assert (t <> ScLine) as Hsc by (intros ->; tauto). unfold matches in M.
    destruct (tok_eq_dec t End) as [->|He].
    + unfold re_match in M. cbn [tok_re rmatch] in M. destruct s as [|d s]; [|discriminate].
      destruct (c =? 10)%N; [|discriminate]. injection M as <- <-. cbn. lia.
    + destruct (tok_eq_dec t StartSc) as [->|Hst].
      * rewrite re_startsc in M. destruct (c =? 10)%N eqn:E10.
        -- apply N.eqb_eq in E10. specialize (Hs E10). destruct s as [|d s]; [discriminate|]. cbn in Hs. now rewrite Hs in M.
        -- destruct Hc as [->|[->| ->]]; discriminate.
      * rewrite re_none in M; [discriminate| |];
          destruct t; try congruence; destruct g; try reflexivity; destruct Hc as [->|[->| ->]]; reflexivity.
Qed.
(** [w] blank, and not directly before a semicolon *)
Lemma scan_blanks g restrict w s : restrict <> [] -> ~ In ScLine restrict -> Forall skippable w -> first_is 59 s = false ->
  scan g restrict (w ++ s) = scan g restrict s.
Proof.
  intros Hr Hn Hw Hs. induction Hw as [|c w Hc Hw IH]; [reflexivity|].
  rewrite <- IH. cbn [app]. unfold scan at 1. cbn [length scan_go].
  rewrite blank_wins; [reflexivity| | |exact Hc|].
  - apply accepted_In; [exact Hr|]. split; [destruct g; cbn; tauto|now right].
  - intros H. apply accepted_In in H; [|exact Hr]. destruct H as [_ [H|H]]; [tauto|discriminate].
  - intros _. destruct w as [|d w]; [exact Hs|]. cbn. apply N.eqb_neq.
    apply Forall_cons_iff in Hw. destruct Hw as [[->|[->| ->]] _]; discriminate.
Qed.

(** A token that wins at once. *)
Lemma scan_first g restrict s t m r : best_match g (accepted g restrict) s None = Some (t, m, r) -> ignored t = false ->
  scan g restrict s = Ret (t, m, r).
Proof. intros H Hi. unfold scan. destruct (length s); cbn [scan_go]; now rewrite H, Hi. Qed.

Lemma scan_total g restrict s :
  match scan g restrict s with
  | Ret (t, m, r) => exists w, s = w ++ m ++ r /\ skipped g (accepted g restrict) w (m ++ r)
                     /\ wins g (accepted g restrict) (m ++ r) t m r /\ ignored t = false
  | Raise e => e = SyntaxErr /\ exists w r, s = w ++ r /\ skipped g (accepted g restrict) w r /\ stuck g (accepted g restrict) r
  end.
Proof. apply scan_go_spec. lia. Qed.
Lemma scan_unique g restrict w t m r :
  skipped g (accepted g restrict) w (m ++ r) -> wins g (accepted g restrict) (m ++ r) t m r -> ignored t = false ->
  scan g restrict (w ++ m ++ r) = Ret (t, m, r).
Proof.
  intros Hw W Hi. unfold scan. rewrite (skipped_go _ _ _ _ Hw _ (length (m ++ r))) by lia.
  apply best_wins in W. destruct (length (m ++ r)); cbn [scan_go]; now rewrite W, Hi.
Qed.
