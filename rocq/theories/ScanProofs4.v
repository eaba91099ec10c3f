(** Datanames read back; first characters of tokens. *)
From Coq Require Import String Ascii List NArith ZArith Bool Lia ZifyBool ZifyN ZifyNat.
From Verif Require Import PyBase PyFacts RegexModel RegexFacts StarBlockModel StarBlockSpec StarBlockProofs6 ScanModel ScanFacts ScanSpec
  ScanProofs ScanProofs2 ScanProofs3.
Import ListNotations.
Open Scope nat_scope.

(** What ends a name: a line end, a space or a tab. *)
Definition ends_name (t : str) : Prop := match t with [] => True | c :: _ => In c [32; 9; 10; 13]%N end.

Lemma ascii_name_char g c : printing_ascii c -> name_char g c = true.
Proof.
  unfold printing_ascii. intros H. assert (name_char1 c = true) as E.
  { unfold name_char1.
    assert (In c (map N.of_nat (seq 33 94))) as Hi.
    { apply in_map_iff. exists (N.to_nat c). split; [lia|]. apply in_seq. lia. }
    assert (forallb (fun c => existsb (N.eqb c) (u "][!%&()*+,./:<=>?@") || ((48 <=? c) && (c <=? 57))%N || ((65 <=? c) && (c <=? 90))%N
      || ((97 <=? c) && (c <=? 122))%N || existsb (N.eqb c) (u "\^`{}|~""#$';_-")) (map N.of_nat (seq 33 94)) = true) as F by (vm_compute; reflexivity).
    rewrite forallb_forall in F. exact (F c Hi). }
  destruct g; cbn [name_char]; unfold name_char2; rewrite E; reflexivity.
Qed.
Lemma unicode_name_char2 c : (c <= 0xFFFF)%N -> unicode_name_char c -> name_char2 c = true.
Proof.
  intros Hc (H1 & H2 & H3 & H4). destruct (N.le_gt_cases c 126) as [L|L].
  - exact (ascii_name_char G20 c (conj H1 L)).
  - unfold name_char2. assert (~ (0xFDD0 <= c <= 0xFDEF)%N) by (intros X; apply H4; now left).
    assert (c <> 0xFFFE /\ c <> 0xFFFF)%N as [X Y] by (split; intros ->; apply H4; right; reflexivity).
    destruct (name_char1 c); cbn [orb]; lia.
Qed.
Lemma name_scan g restrict r t w : In DataName restrict -> ~ In ScLine restrict -> r <> [] ->
  Forall (fun c => name_char g c = true) r -> ends_name t -> Forall skippable w ->
  scan g restrict (w ++ (95%N :: r) ++ t) = Ret (DataName, 95%N :: r, t).
Proof.
  intros Hd Hs Hr Hn Ht Hw. assert (restrict <> []) as Hne by (intros ->; destruct Hd).
  rewrite scan_blanks by (assumption || reflexivity). apply scan_first; [|reflexivity]. apply best_longest.
  - apply accepted_In; [exact Hne|]. split; [destruct g; cbn; tauto|now left].
  - unfold matches. rewrite re_name. cbn [app]. rewrite N.eqb_refl.
    rewrite (span_prefix _ r t Hn); [destruct r; [congruence|reflexivity]|].
    destruct t as [|c t]; [exact I|]. destruct Ht as [<-|[<-|[<-|[<-|[]]]]]; destruct g; reflexivity.
  - intros t' m' r' Hi Hneq M. exfalso. apply accepted_In in Hi; [|exact Hne]. destruct Hi as [Hp Hi].
    assert (t' <> ScLine) as N1 by (intros ->; destruct Hi as [Hi|Hi]; [tauto|discriminate]).
    unfold matches in M. destruct (tok_eq_dec t' End) as [->|N2].
    { destruct r as [|x r]; [congruence|]. unfold re_match in M. cbn in M. discriminate. }
    cbn [app] in M. rewrite re_none in M; [discriminate| |]; destruct t'; try congruence; destruct g; reflexivity.
Qed.
Lemma name_readback m n : check_data_name m false n = Ret tt -> 2 <= length n -> forall g restrict t w,
  In DataName restrict -> ~ In ScLine restrict -> ends_name t -> Forall skippable w ->
  scan g restrict (w ++ n ++ t) = Ret (DataName, n, t).
Proof.
  intros H L g restrict t w Hd Hs Ht Hw. apply check_name_ascii in H.
  destruct H as ((r & ->) & _ & Hf). apply Forall_cons_iff in Hf. destruct Hf as [_ Hf].
  apply name_scan; try assumption.
  - intros ->. cbn in L. lia.
  - eapply Forall_impl; [|exact Hf]. intros c. apply ascii_name_char.
Qed.
Lemma name_readback2 m n : (forall c, In c n -> (c <= 0xFFFF)%N) -> check_data_name m true n = Ret tt -> 2 <= length n -> forall g restrict t w,
  g = G20 \/ g = GS2 -> In DataName restrict -> ~ In ScLine restrict -> ends_name t -> Forall skippable w ->
  scan g restrict (w ++ n ++ t) = Ret (DataName, n, t).
Proof.
  intros Hc H L g restrict t w Hg Hd Hs Ht Hw. apply check_name_unicode in H; [|exact Hc].
  destruct H as ((r & ->) & _ & Hf). apply Forall_cons_iff in Hf. destruct Hf as [_ Hf].
  apply name_scan; try assumption.
  - intros ->. cbn in L. lia.
  - apply Forall_forall. intros c Hi. rewrite Forall_forall in Hf. specialize (Hf c Hi).
    assert (name_char2 c = true) by (apply unicode_name_char2; [apply Hc; now right|exact Hf]). destruct Hg as [->| ->]; assumption.
Qed.

(** Outside text fields no token starts with a blank or a comment sign, and one
    that starts with a line end is the start of a text field. *)
Lemma token_start g restrict s t m r c x : scan g restrict s = Ret (t, m, r) -> t <> ScLine -> m = c :: x ->
  ~ In c [32; 9; 35]%N /\ (c = 10%N \/ c = 13%N -> t = StartSc).
Proof.
  intros E Hn ->. pose proof (scan_total g restrict s) as T. rewrite E in T.
  destruct T as (w & -> & _ & (b & a & _ & M & _) & Hi). unfold matches in M. cbn [app] in M.
  destruct (tok_eq_dec t End) as [->|N2].
  { apply end_match in M. discriminate. }
  assert (t <> Ign1 /\ t <> Ign2) as [N3 N4] by (split; intros ->; discriminate).
  assert (nullable (tok_re g t) = false) as Hnull by (destruct g, t; reflexivity || congruence).
  assert (first_ok (tok_re g t) c = true) as Hf by (destruct (first_ok (tok_re g t) c) eqn:F; [reflexivity|rewrite re_none in M by assumption; discriminate]).
  split.
  - intros [<-|[<-|[<-|[]]]]; destruct g, t; try discriminate; congruence.
  - intros [->| ->]; destruct g, t; try discriminate; try congruence; tauto.
Qed.
