(** Where text fields start and end: the invariant of both parsers. *)
From Coq Require Import String Ascii List NArith PeanoNat Bool Lia.
From Verif Require Import PyBase PyFacts RegexModel RegexFacts RegexSpec RegexProofs ScanModel ScanFacts ScanSpec ScanProofs ScanProofs2 ScanProofs3 ReadModel ParseModel FlexModel FlexSpec FlexProofs FlexProofs2 FlexProofs3 FlexProofs4 FlexProofs5 FlexProofs6 FlexProofs7.
Import ListNotations.
Open Scope nat_scope.

(** ** Tokens without newlines *)
Fixpoint avoids (k : N) (r : re) : bool :=
  match r with
  | RChr p => negb (p k)
  | RSeq a b | RAlt a b => avoids k a && avoids k b
  | RStar a | RLazy a => avoids k a
  | _ => true
  end.
Lemma avoids_lang k r : avoids k r = true -> forall c t, lang r c t -> ~ In k c.
Proof.
  induction r as [|p|a IHa b IHb|a IHa b IHb|a IHa|a IHa|a IHa|a IHa| |]; cbn [avoids lang]; intros A c t L K.
  - subst. destruct K.
  - destruct L as (x & -> & X). destruct K as [<-|[]]. now rewrite X in A.
  - apply andb_prop in A. destruct A as [A1 A2]. destruct L as (c1 & c2 & -> & L1 & L2). apply in_app_or in K. destruct K as [K|K]; [now apply (IHa A1 _ _ L1)|now apply (IHb A2 _ _ L2)].
  - apply andb_prop in A. destruct A as [A1 A2]. destruct L as [L|L]; [now apply (IHa A1 _ _ L)|now apply (IHb A2 _ _ L)].
  - induction L as [|c1 c2 t L _ IH]; [destruct K|]. apply in_app_or in K. destruct K as [K|K]; [now apply (IHa A _ _ L)|now apply IH].
  - induction L as [|c1 c2 t L _ IH]; [destruct K|]. apply in_app_or in K. destruct K as [K|K]; [now apply (IHa A _ _ L)|now apply IH].
  - destruct L as [-> _]. destruct K.
  - destruct L as [-> _]. destruct K.
  - destruct L as [-> _]. destruct K.
  - destruct L as [-> _]. destruct K.
Qed.
Lemma one_line g t m r s : g = G10 \/ g = G11 -> In t outside -> t <> StartSc -> matches g t s m r -> ~ In 10%N m.
Proof.
  intros G O N0 M. unfold matches in M. pose proof (re_match_lang (tok_re g t) s) as L. rewrite M in L. destruct L as [_ L]. refine (avoids_lang 10 (tok_re g t) _ m r L).
  unfold outside in O. cbn [In] in O. destruct G as [-> | ->]; decompose [or] O; subst; try contradiction; reflexivity.
Qed.

(** ** Counting the semicolons at the start of a line *)
Definition ends10 (a : str) : bool := last_is 10 a.
Definition joint (a b : str) : nat := if ends10 a && first_is 59 b then 1 else 0.
Lemma ends10_app a b : b <> [] -> ends10 (a ++ b) = ends10 b.
Proof. intros H. unfold ends10, last_is. rewrite rev_app_distr. destruct (rev b) as [|c x] eqn:E; [|reflexivity]. exfalso. apply H. apply (f_equal (@rev N)) in E. now rewrite rev_involutive in E. Qed.
Lemma semis_app a b : semis (a ++ b) = semis a + joint a b + semis b.
Proof.
  induction a as [|c a IH]; [reflexivity|]. destruct a as [|d a].
  - destruct b as [|e b]; [unfold joint, ends10; cbn; now rewrite andb_false_r|]. cbn [app semis]. unfold joint, ends10. cbn [last_is rev app first_is]. destruct ((c =? 10) && (e =? 59))%N; reflexivity.
  - cbn [app]. change (semis (c :: d :: a ++ b)) with ((if ((c =? 10) && (d =? 59))%N then 1 else 0) + semis ((d :: a) ++ b)). rewrite IH.
    change (semis (c :: d :: a)) with ((if ((c =? 10) && (d =? 59))%N then 1 else 0) + semis (d :: a)).
    assert (joint (c :: d :: a) b = joint (d :: a) b) as ->; [|lia]. unfold joint. change (c :: d :: a) with ([c] ++ d :: a). now rewrite ends10_app by discriminate.
Qed.
Lemma semis_flat a : ~ In 10%N a -> semis a = 0.
Proof.
  induction a as [|c a IH]; intros H; [reflexivity|]. destruct a as [|d a]; [reflexivity|]. cbn [semis]. assert ((c =? 10)%N = false) as -> by (apply N.eqb_neq; intros ->; apply H; now left).
  cbn [andb]. apply IH. intros K. apply H. now right.
Qed.
Lemma semis_newlines n : semis (repeat 10%N n) = 0.
Proof. induction n as [|[|n] IH]; [reflexivity|reflexivity|]. exact IH. Qed.
Lemma ends10_newlines a n : ends10 (a ++ repeat 10%N (S n)) = true.
Proof.
  rewrite ends10_app by discriminate. clear a. unfold ends10, last_is. cbn [repeat]. assert (rev (10%N :: repeat 10%N n) = 10%N :: repeat 10%N n) as ->; [|reflexivity].
  induction n as [|n IH]; [reflexivity|]. cbn [repeat]. cbn [rev] in *. rewrite IH. cbn [app]. f_equal. clear IH. induction n as [|n IH]; [reflexivity|]. cbn [repeat app]. now rewrite IH.
Qed.
Lemma not_ends10 a c : c <> 10%N -> ends10 (a ++ [c]) = false.
Proof. intros H. unfold ends10, last_is. rewrite rev_app_distr. cbn [rev app first_is]. now apply N.eqb_neq. Qed.
Lemma flat_ends a b : ~ In 10%N b -> b <> [] -> ends10 (a ++ b) = false.
Proof. intros H N0. destruct (exists_last N0) as (x & c & ->). rewrite app_assoc. apply not_ends10. intros ->. apply H, in_or_app. right. now left. Qed.

(** Blanks and comments leave the count as it is. *)
Lemma strip_split s : forall cm, exists w, s = w ++ strip cm s /\ forall a, (ends10 a = true -> first_is 59 s = false) ->
  semis (a ++ w) = semis a /\ (ends10 (a ++ w) = true -> first_is 59 (strip cm s) = false).
Proof.
  induction s as [|c s IH]; intros cm; [exists []; split; [reflexivity|]; intros a H; rewrite app_nil_r; now split|].
  assert (forall cm', (c = 10%N -> first_is 59 s = false) -> exists w, c :: s = w ++ strip cm' s /\ forall a, (ends10 a = true -> first_is 59 (c :: s) = false) ->
    semis (a ++ w) = semis a /\ (ends10 (a ++ w) = true -> first_is 59 (strip cm' s) = false)) as Go.
  { intros cm' Hc. destruct (IH cm') as (w & E & P). exists (c :: w). split; [cbn [app]; now rewrite <- E|]. intros a Ha.
    assert (a ++ c :: w = (a ++ [c]) ++ w) as -> by now rewrite <- app_assoc. destruct (P (a ++ [c])) as [P1 P2].
    - unfold ends10, last_is. rewrite rev_app_distr. cbn [rev app first_is]. intros K. apply N.eqb_eq in K. now apply Hc.
    - rewrite P1. split; [|exact P2]. rewrite semis_app. unfold joint. cbn [first_is semis] in *. destruct (ends10 a); [rewrite Ha by reflexivity|]; cbn [andb]; lia. }
  assert (exists w, c :: s = w ++ c :: s /\ forall a, (ends10 a = true -> first_is 59 (c :: s) = false) ->
    semis (a ++ w) = semis a /\ (ends10 (a ++ w) = true -> first_is 59 (c :: s) = false)) as Stay.
  { exists []. split; [reflexivity|]. intros a Ha. rewrite app_nil_r. now split. }
  cbn [strip]. destruct (N.eqb_spec c 10) as [->|N0].
  - destruct (first_is 59 s) eqn:F; [exact Stay|]. apply Go. reflexivity.
  - destruct cm; [apply Go; contradiction|]. destruct (c =? 35)%N; [apply Go; contradiction|]. destruct (_ || _); [apply Go; contradiction|]. exact Stay.
Qed.

(** ** The invariant *)
Section Inv.
  Variables (g : grammar) (s0 : str).
  Hypothesis G : g = G10 \/ g = G11.
  Hypothesis P0 : plain_text s0.
  Hypothesis H0 : no_hash_text s0.
  Definition at_ (c : start) (inp : str) : Prop := exists a, s0 = a ++ inp /\
    match c with
    | Initial => Nat.even (semis a) = true /\ (ends10 a = true -> first_is 59 inp = false) \/ ~ In 10%N inp
    | Alltext => Nat.even (semis a) = false /\ ends10 a = true /\ first_is 10 inp = false
    end.
  Lemma at_plain c inp : at_ c inp -> plain_text inp.
  Proof. intros (a & E & _). pose proof P0 as P. rewrite E in P. apply plain_app in P. exact (proj2 P). Qed.
  Lemma at_no_hash inp : at_ Alltext inp -> first_is 35 inp = false.
  Proof.
    intros (a & E & A1 & A2 & A3). destruct inp as [|c inp]; [reflexivity|]. cbn [first_is]. apply N.eqb_neq. intros ->.
    assert (exists a', a = a' ++ [10%N]) as (a' & ->). { unfold ends10, last_is in A2. destruct (rev a) as [|d x] eqn:R; [discriminate|]. cbn [first_is] in A2. apply N.eqb_eq in A2. subst d. exists (rev x). apply (f_equal (@rev N)) in R. now rewrite rev_involutive in R. }
    rewrite <- app_assoc in E. cbn [app] in E. pose proof (H0 _ _ E) as Ev. rewrite semis_app in A1. unfold joint in A1. cbn [first_is semis] in A1. change (10 =? 59)%N with false in A1. rewrite andb_false_r, !Nat.add_0_r in A1. congruence.
  Qed.
  Lemma at_start : at_ Initial s0.
  Proof. exists []. split; [reflexivity|]. left. split; [reflexivity|]. intros K. discriminate K. Qed.

  (** Scanning outside a text field. *)
  Lemma at_initial R inp t m r : at_ Initial inp -> scan g R inp = Ret (t, m, r) -> R <> [] -> (forall x, In x R -> In x outside) ->
    at_ (after t Initial) r /\ (exists a, s0 = a ++ m ++ r) /\ In t outside /\ matches g t (m ++ r) m r /\ strip false inp = m ++ r.
  Proof.
    intros A E NR Out. pose proof (at_plain _ _ A) as P.
    assert (~ In ScLine R) as NS by (intros K; apply Out in K; cbn in K; intuition discriminate).
    destruct (py_token g R inp t m r G E NR NS P) as (S1 & _ & IR & W & P'). pose proof (wins_matches _ _ _ _ _ _ W) as M.
    destruct A as (a & Ea & Ha). destruct (strip_split inp false) as (w & Ew & Pw). rewrite S1 in Ew, Pw.
    assert (s0 = (a ++ w) ++ m ++ r) as Es by (rewrite <- app_assoc, <- Ew; exact Ea).
    split; [|split; [now exists (a ++ w)|]; split; [now apply Out|]; split; [exact M|exact S1]].
    exists ((a ++ w) ++ m). split; [rewrite <- app_assoc; exact Es|].
    destruct (tok_eq_dec t StartSc) as [->|Nt].
    - cbn [after]. unfold matches in M. rewrite re_startsc in M. destruct (m ++ r) as [|c s1] eqn:Ec; [discriminate|]. destruct (N.eqb_spec c 10) as [->|N0].
      + destruct s1 as [|d s2]; [discriminate|]. destruct (N.eqb_spec d 59) as [->|]; [|discriminate]. destruct (line_end s2) as [[m1 r1]|] eqn:L; [|discriminate]. cbn [option_map pre fst snd app] in M. injection M as <- <-.
        destruct Ha as [[Ha1 Ha2]|Ha]; [|exfalso; apply Ha; rewrite Ew; apply in_or_app; right; now left]. destruct (Pw a Ha2) as [Pw1 Pw2].
        assert (plain_text s2) as P2 by (apply plain_cons in P'; destruct P' as [_ P']; apply plain_cons in P'; tauto).
        destruct (line_end_plain s2 m1 r1 P2 L) as (x & n & -> & Nx & _ & Fr).
        split; [|split; [|exact Fr]].
        * rewrite semis_app, Pw1. unfold joint. change (first_is 59 (10%N :: 59%N :: x ++ repeat 10%N (S n))) with false. rewrite andb_false_r.
          change (semis (10%N :: 59%N :: x ++ repeat 10%N (S n))) with (1 + semis ((59%N :: x) ++ repeat 10%N (S n))). rewrite semis_app, semis_newlines, (semis_flat (59%N :: x)) by (intros [K|K]; [discriminate|contradiction]).
          unfold joint. change (first_is 59 (repeat 10%N (S n))) with false. rewrite andb_false_r. replace (semis a + 0 + (1 + (0 + 0 + 0))) with (S (semis a)) by lia. rewrite Nat.even_succ, <- Nat.negb_even, Ha1. reflexivity.
        * change (10%N :: 59%N :: x ++ repeat 10%N (S n)) with ((10%N :: 59%N :: x) ++ repeat 10%N (S n)). rewrite app_assoc. apply ends10_newlines.
      + destruct (N.eqb_spec c 13) as [->|]; [|discriminate]. exfalso. apply plain_cons in P'. destruct P' as [P' _]. lia.
    - assert (after t Initial = Initial) as -> by (destruct t; try reflexivity; contradiction).
      pose proof (one_line g t m r (m ++ r) G (Out _ IR) Nt M) as Nm.
      destruct Ha as [[Ha1 Ha2]|Ha]; [left|right; intros K; apply Ha; rewrite Ew; apply in_or_app; right; apply in_or_app; now right].
      destruct (Pw a Ha2) as [Pw1 Pw2]. split.
      + rewrite semis_app, Pw1, (semis_flat m Nm). unfold joint. destruct (ends10 (a ++ w)) eqn:Ee; [|cbn [andb]; now rewrite !Nat.add_0_r].
        specialize (Pw2 eq_refl). assert (first_is 59 m = false) as -> by (destruct m; [reflexivity|exact Pw2]). cbn [andb]. now rewrite !Nat.add_0_r.
      + destruct m as [|d m]; [rewrite app_nil_r; exact Pw2|]. rewrite flat_ends; [discriminate|exact Nm|discriminate].
  Qed.
  (** ... and within one. *)
  Lemma at_text inp t m r : at_ Alltext inp -> scan g [ScLine; EndSc] inp = Ret (t, m, r) ->
    at_ (after t Alltext) r /\ (t = ScLine \/ t = EndSc) /\ flex_scan Alltext inp = Ret (Some t, m, after t Alltext, r).
  Proof.
    intros A E. pose proof (at_plain _ _ A) as P. pose proof (at_no_hash _ A) as F35. destruct A as (a & Ea & A1 & A2 & A3).
    destruct (text_token g inp t m r G P F35 A3 E) as [F D]. split; [|split; [tauto|exact F]].
    destruct D as [(-> & Es & (c & x & n & -> & C1 & C2 & Nx) & Fr)|(-> & -> & D)]; cbn [after].
    - exists (a ++ c :: x ++ repeat 10%N (S n)). split; [rewrite <- app_assoc, <- Es; exact Ea|]. split; [|split; [|exact Fr]].
      + rewrite semis_app. unfold joint. cbn [first_is]. assert ((c =? 59)%N = false) as -> by now apply N.eqb_neq. rewrite andb_false_r.
        change (c :: x ++ repeat 10%N (S n)) with ((c :: x) ++ repeat 10%N (S n)). rewrite semis_app, semis_newlines, (semis_flat (c :: x)) by (intros [K|K]; [contradiction|contradiction]).
        unfold joint. change (first_is 59 (repeat 10%N (S n))) with false. rewrite andb_false_r. now rewrite !Nat.add_0_r.
      + change (c :: x ++ repeat 10%N (S n)) with ((c :: x) ++ repeat 10%N (S n)). rewrite app_assoc. apply ends10_newlines.
    - destruct D as [-> | [N0 (w & ->)]].
      + exists (a ++ [59%N]). split; [rewrite <- app_assoc; exact Ea|]. left. split; [|intros K; rewrite not_ends10 in K; discriminate].
        rewrite semis_app. unfold joint. rewrite A2. cbn [first_is andb semis]. change (59 =? 59)%N with true. cbn iota. replace (semis a + 1 + 0) with (S (semis a)) by lia. rewrite Nat.even_succ, <- Nat.negb_even, A1. reflexivity.
      + exists (a ++ w ++ [59%N]). split; [rewrite <- !app_assoc; exact Ea|]. right. intros K. apply N0, in_or_app. right. now right.
  Qed.
End Inv.
