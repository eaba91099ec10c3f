(** The texts of the tokens. *)
From Coq Require Import String Ascii List NArith PeanoNat Bool Lia.
From Verif Require Import PyBase RegexModel RegexSpec RegexProofs ScanModel ScanSpec ReadModel ParseModel ParseSpec GrammarSpec FlexProofs GrammarProofs2 GrammarProofs3.
Import ListNotations.
Open Scope nat_scope.

Lemma is_lang c m a : lang (is c) m a -> m = [c].
Proof. intros (x & -> & E). apply N.eqb_eq in E. now subst. Qed.
Lemma either_lower c m a : lang (either_case c) m a -> lower m = lower [c].
Proof.
  unfold either_case. destruct ((65 <=? c) && (c <=? 90))%N eqn:E.
  - unfold letter. intros [L|L]; apply is_lang in L; subst m; [reflexivity|]. apply andb_true_iff in E as [E1 E2]. apply N.leb_le in E1, E2. cbn [lower map]. f_equal. unfold lower_char.
    replace ((65 <=? c) && (c <=? 90))%N with true by (symmetry; apply andb_true_iff; split; apply N.leb_le; lia).
    replace ((65 <=? c + 32) && (c + 32 <=? 90))%N with false by (symmetry; apply andb_false_iff; right; apply N.leb_gt; lia). lia.
  - intros L. apply is_lang in L. now subst m.
Qed.
Lemma word_lower w : forall m a, lang (word_ci w) m a -> lower m = lower w.
Proof.
  unfold word_ci. induction w as [|c w IH]; intros m a L; [cbn in L; now subst m|]. destruct w as [|d w].
  - exact (either_lower _ _ _ L).
  - change (lang (RSeq (either_case c) (rseq (map either_case (d :: w)))) m a) in L. destruct L as (c1 & c2 & -> & L1 & L). unfold lower. rewrite map_app. fold (lower c1) (lower c2). rewrite (IH _ _ L), (either_lower _ _ _ L1). reflexivity.
Qed.
Lemma not_in_spec cs c : not_in cs c = true -> ~ In c cs.
Proof. unfold not_in. intros H K. apply negb_true_iff in H. assert (existsb (N.eqb c) cs = true) as H1 by (apply existsb_exists; exists c; split; [exact K|apply N.eqb_refl]). congruence. Qed.
Lemma not_eol_spec c : not_eol c = true -> ~ eol c.
Proof. intros H E. apply not_in_spec in H. apply H. destruct E as [-> | ->]; [now left|right; now left]. Qed.
Lemma eols_lang y a : lang re_eols y a -> y <> [] /\ Forall eol y.
Proof.
  assert (forall m t, lang (RAlt (RSeq (is 13) (is 10)) (RAlt (is 13) (is 10))) m t -> m <> [] /\ Forall eol m) as K.
  { intros m t [(c1 & c2 & -> & L1 & L2)|[L|L]].
    - apply is_lang in L1, L2. subst. split; [discriminate|]. constructor; [now right|constructor; [now left|constructor]].
    - apply is_lang in L. subst. split; [discriminate|]. constructor; [now right|constructor].
    - apply is_lang in L. subst. split; [discriminate|]. constructor; [now left|constructor]. }
  intros (c1 & c2 & -> & L1 & L2). destruct (K _ _ L1) as [N1 F1]. split; [destruct c1; [easy|discriminate]|]. apply Forall_app. split; [exact F1|].
  clear L1. change (reps (lang (RAlt (RSeq (is 13) (is 10)) (RAlt (is 13) (is 10)))) c2 a) in L2. induction L2 as [|c3 c4 t M _ IH]; [constructor|]. apply Forall_app. split; [exact (proj2 (K _ _ M))|exact IH].
Qed.
Lemma star_is q m a : lang (RStar (is q)) m a -> exists k, m = repeat q k.
Proof.
  cbn [lang]. intros H. induction H as [|c1 c2 t (x & -> & E) _ (k & ->)]; [now exists 0|]. apply N.eqb_eq in E. subst x. now exists (Datatypes.S k).
Qed.

Section Texts.
Context (g : grammar).
Lemma quoted2_text q ex m a : lang (re_quoted2 q ex) m a -> (forall c, In c [10; 13; q]%N -> In c ex) ->
  exists x k, m = q :: x ++ q :: repeat q k /\ Forall (fun c => ~ eol c /\ c <> q) x.
Proof.
  intros (c1 & c2 & -> & L1 & (c3 & c4 & -> & L2 & (c5 & c6 & -> & L3 & L4))) EX. apply is_lang in L1, L3. subst c1 c5. apply lang_star in L2. destruct (star_is _ _ _ L4) as (k & ->). exists c3, k. split; [reflexivity|].
  eapply Forall_impl; [|exact L2]. cbv beta. intros c H. apply not_in_spec in H. split; [intros [-> | ->]|intros ->]; apply H, EX; cbn [In]; auto.
Qed.
Lemma triple_text q m a : lang (re_triple q) m a -> exists x, m = [q; q; q] ++ x ++ [q; q; q].
Proof.
  unfold re_triple. cbn [rseq]. intros (a1 & a2 & -> & L1 & (b1 & b2 & -> & L2 & (c1 & c2 & -> & L3 & (x & d2 & -> & _ & (e1 & e2 & -> & L4 & (f1 & f2 & -> & L5 & L6)))))).
  apply is_lang in L1, L2, L3, L4, L5, L6. subst. exists x. reflexivity.
Qed.
Lemma plain_text m a : lang (re_plain g) m a -> bare g m.
Proof.
  intros (c0 & c1 & -> & [-> _] & (c2 & c3 & -> & (x & -> & X) & L)). apply lang_star in L. cbn [app]. unfold plain_first in X. apply andb_true_iff in X as [X1 X2]. unfold bare. split; [|split].
  - constructor; [now apply negb_true_iff|]. eapply Forall_impl; [|exact L]. cbv beta. intros c H. unfold plain_next in H. apply andb_true_iff in H as [H _]. now apply negb_true_iff.
  - exists x, c3. split; [reflexivity|]. assert (~ In x [34; 35; 36; 39; 95]%N) as K.
    { intros K. destruct g; apply not_in_spec in X2; apply X2; cbn [In] in K; decompose [or] K; subst; cbn; tauto. }
    split; [intros [-> | ->]|intros J]; apply K; cbn [In] in *; tauto.
  - intros [G|G]; rewrite G in *.
    + apply not_in_spec in X2. constructor; [intros B; apply X2; cbn [In bracket] in *; unfold bracket in B; cbn [In] in B; decompose [or] B; subst; cbn; tauto|].
      eapply Forall_impl; [|exact L]. cbv beta. intros c H B. unfold plain_next in H. apply andb_true_iff in H as [_ H]. apply not_in_spec in H. apply H. unfold bracket in B; cbn [In] in B; decompose [or] B; subst; cbn; tauto.
    + apply not_in_spec in X2. constructor; [intros B; apply X2; unfold bracket in B; cbn [In] in B; decompose [or] B; subst; cbn; tauto|].
      eapply Forall_impl; [|exact L]. cbv beta. intros c H B. unfold plain_next in H. apply andb_true_iff in H as [_ H]. apply not_in_spec in H. apply H. unfold bracket in B; cbn [In] in B; decompose [or] B; subst; cbn; tauto.
Qed.
Lemma quoted1_text q ex m a : quote q -> lang (re_quoted1 q ex) m a -> (forall c, In c [10; 13]%N -> In c ex) ->
  exists x, m = q :: x ++ [q] /\ Forall (fun c => ~ eol c) x.
Proof.
  intros Q (c1 & c2 & -> & L1 & (c3 & c4 & -> & L2 & (c5 & c6 & -> & L3 & L4))) EX. apply is_lang in L1, L3. subst c1 c5. destruct (star_is _ _ _ L4) as (k & ->).
  assert (~ eol q) as NQ by (intros [-> | ->]; destruct Q as [Q|Q]; discriminate).
  assert (Forall (fun c => ~ eol c) c3) as F3.
  { clear L4. cbn [lang] in L2. induction L2 as [|d1 d2 t [ (e1 & e2 & -> & M1 & [-> _])|(x & -> & X)] _ IH]; [constructor| |].
    - apply is_lang in M1. subst e1. constructor; auto.
    - constructor; [|exact IH]. apply not_in_spec in X. intros E. apply X, EX. destruct E as [-> | ->]; cbn; auto. }
  exists (c3 ++ repeat q k). split.
  - cbn [app]. f_equal. rewrite <- app_assoc. f_equal. exact (repeat_cons k q).
  - apply Forall_app. split; [exact F3|]. apply Forall_forall. intros c C. apply repeat_spec in C. now subst c.
Qed.
Lemma token_texts t m a : matches g t (m ++ a) m a -> token_text g t m.
Proof.
  intros M. destruct t; try exact Logic.I;
    try (apply re_in in M; destruct M as [_ L]; cbn [tok_re] in L; cbn [token_text]; exact (is_lang _ _ _ L)).
  - apply re_in in M. destruct M as [_ L]. exact (word_lower (u "LOOP_") _ _ L).
  - apply re_in in M. destruct M as [_ (w & n & -> & L1 & L2)]. exists w, n. split; [reflexivity|]. split; [exact (word_lower (u "SAVE_") _ _ L1)|exact (plus_name _ _ _ L2)].
  - apply re_in in M. destruct M as [_ L]. exact (word_lower (u "SAVE_") _ _ L).
  - exact (dataname_text _ _ _ M).
  - apply re_in in M. destruct M as [_ (w & n & -> & L1 & L2)]. exists w, n. split; [reflexivity|]. split; [exact (word_lower (u "DATA_") _ _ L1)|exact (plus_name _ _ _ L2)].
  - apply re_in in M. destruct M as [_ L]. cbn [tok_re rseq] in L. destruct L as (e & c2 & -> & L1 & (s & c4 & -> & L2 & (x & y & -> & L3 & L4))). apply is_lang in L2. subst s. apply lang_star in L3. apply eols_lang in L4. exists e, x, y.
    split; [reflexivity|]. split; [|split; [|exact L4]].
    + destruct L1 as [L1|(d1 & d2 & -> & D1 & D2)]; [left; exact (is_lang _ _ _ L1)|]. apply is_lang in D1, D2. subst. now right.
    + eapply Forall_impl; [|exact L3]. exact not_eol_spec.
  - apply re_in in M. destruct M as [_ L]. cbn [tok_re rseq] in L. destruct L as (e & c2 & -> & (z & -> & Z) & (x & y & -> & L3 & L4)). apply lang_star in L3. apply eols_lang in L4. apply not_in_spec in Z.
    exists (z :: x), y. split; [reflexivity|]. split; [intros E; injection E as ->; apply Z; now left|]. split; [discriminate|]. split; [|exact L4].
    constructor; [intros [-> | ->]; apply Z; cbn; auto|]. eapply Forall_impl; [|exact L3]. exact not_eol_spec.
  - apply re_in in M. destruct M as [_ [L|L]]; apply triple_text in L; destruct L as (x & ->); eexists; exists x; (split; [|reflexivity]); [now left|now right].
  - apply re_in in M. destruct M as [_ [L|L]].
    + destruct (quoted2_text _ _ _ _ L) as (x & k & E & F); [unfold excl_sq, sq; cbn [In]; tauto|]. exists sq, x, k. split; [now left|]. split; [exact E|exact F].
    + destruct (quoted2_text _ _ _ _ L) as (x & k & E & F); [unfold excl_dq, dq; cbn [In]; tauto|]. exists dq, x, k. split; [now right|]. split; [exact E|exact F].
  - apply re_in in M. destruct M as [_ L]. cbn [token_text].
    assert (lang (RAlt (re_plain g) (RAlt (re_quoted1 sq excl_sq) (re_quoted1 dq excl_dq))) m a -> ~ cif2 g -> bare g m \/ (~ cif2 g /\ exists q x, quote q /\ m = q :: x ++ [q] /\ Forall (fun c => ~ eol c) x)) as K.
    { clear L. intros [L|[L|L]] NC; [left; exact (plain_text _ _ L)| |]; right; (split; [exact NC|]).
      - destruct (quoted1_text _ _ _ _ (or_introl eq_refl) L) as (x & E & F); [unfold excl_sq; cbn [In]; tauto|]. exists sq, x. split; [now left|]. split; assumption.
      - destruct (quoted1_text _ _ _ _ (or_intror eq_refl) L) as (x & E & F); [unfold excl_dq; cbn [In]; tauto|]. exists dq, x. split; [now right|]. split; assumption. }
    destruct g eqn:G; cbn [tok_re] in L.
    + apply K; [exact L|]. intros [H|H]; discriminate.
    + apply K; [exact L|]. intros [H|H]; discriminate.
    + left. rewrite <- G in L |- *. exact (plain_text _ _ L).
    + left. rewrite <- G in L |- *. exact (plain_text _ _ L).
  - apply re_in in M. destruct M as [_ [E _]]. exact E.
Qed.
Theorem laid_texts ts s r : laid g ts s r -> Forall (fun x => token_text g (fst x) (snd x)) ts.
Proof.
  intros H. apply Forall_forall. intros [t m] K. destruct (laid_matches g _ _ _ H _ _ K) as (a & M). exact (token_texts _ _ _ M).
Qed.
End Texts.
