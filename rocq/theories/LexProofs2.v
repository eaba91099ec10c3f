(** The longest numbers. *)
From Coq Require Import String Ascii List NArith PeanoNat Bool Lia.
From Verif Require Import PyBase PyFacts RegexModel RegexFacts ScanFacts RegexSpec RegexProofs FlexProofs LexModel LexSpec LexProofs.
Import ListNotations.
Open Scope nat_scope.

Lemma hl_rmatch r : head_longest r <->
  forall s x y, hd_error (rmatch r s) = Some x -> In y (rmatch r s) -> length (fst y) <= length (fst x).
Proof.
  split.
  - intros H s [m t] [m' t'] E I. apply rmatch_lang in I. destruct I as [Es L]. exact (H s m t m' t' E Es L).
  - intros H s m t m' t' E Es L. exact (H s (m, t) (m', t') E (proj2 (rmatch_lang r s m' t') (conj Es L))).
Qed.
Lemma hl_ext r r' : (forall s, rmatch r s = rmatch r' s) -> head_longest r -> head_longest r'.
Proof. intros E H. rewrite hl_rmatch in *. intros s x y. rewrite <- E. apply H. Qed.
Lemma opt_hl a : head_longest a -> head_longest (ropt a).
Proof.
  intros H. rewrite hl_rmatch in *. intros s x y. unfold ropt. cbn [rmatch]. rewrite hd_app. intros E I.
  apply in_app_iff in I. destruct (rmatch a s) as [|z l] eqn:Ea.
  - cbn in E. injection E as <-. destruct I as [[]|[<-|[]]]. apply le_n.
  - rewrite <- Ea in E, I. destruct (hd_error (rmatch a s)) as [w|] eqn:Eh; [|rewrite Ea in Eh; discriminate].
    injection E as <-. destruct I as [I|[<-|[]]]; [exact (H s w y Eh I)|cbn; lia].
Qed.
Lemma star_seq_hl p b : (forall c t, p c = true -> rmatch b (c :: t) = []) -> head_longest b -> head_longest (RSeq (RStar (RChr p)) b).
Proof.
  intros Hp H. rewrite hl_rmatch in *. intros s x y. rewrite seq_star_chr by exact Hp. intros E I.
  rewrite hd_map_pre in E. destruct (hd_error (rmatch b (snd (span p s)))) as [w|] eqn:Eh; [|discriminate]. injection E as <-.
  apply in_map_iff in I. destruct I as (v & <- & I). pose proof (H _ _ _ Eh I) as L. destruct v, w. unfold pre. cbn [fst] in *. rewrite !app_length. lia.
Qed.
Lemma plus_seq_hl p b : (forall c t, p c = true -> rmatch b (c :: t) = []) -> head_longest b -> head_longest (RSeq (rplus (RChr p)) b).
Proof.
  intros Hp H. apply (hl_ext (RSeq (RChr p) (RSeq (RStar (RChr p)) b))); [intros s; symmetry; apply rmatch_seq_assoc|].
  apply chr_seq_hl. now apply star_seq_hl.
Qed.
Lemma alt_seq_hl a1 a2 b : head_longest (RAlt (RSeq a1 b) (RSeq a2 b)) -> head_longest (RSeq (RAlt a1 a2) b).
Proof. apply hl_ext. intros s. rewrite rmatch_seq_alt. reflexivity. Qed.
Lemma eps_seq_hl b : head_longest b -> head_longest (RSeq REps b).
Proof. apply hl_ext. intros s. symmetry. apply rmatch_seq_eps. Qed.
Lemma seq_assoc_hl a b c : head_longest (RSeq a (RSeq b c)) -> head_longest (RSeq (RSeq a b) c).
Proof. apply hl_ext. intros s. symmetry. apply rmatch_seq_assoc. Qed.

Lemma sign_plus_hl : head_longest (RSeq (ropt (one_of (u "+-"))) (rplus (RChr dig))).
Proof.
  apply alt_seq_hl. apply alt_hl.
  - apply chr_seq_hl, plus_hl.
  - apply eps_seq_hl, plus_hl.
  - intros c t c' t' E L L'. apply seq_iff in L. destruct L as (c1 & c2 & -> & L1 & _). apply one_of_lang in L1. destruct L1 as (x & -> & Hx).
    apply seq_iff in L'. destruct L' as (d1 & d2 & -> & L1' & L2'). cbn in L1'. subst d1. apply (some_iff _ digit) in L2'; [|exact dig_iff].
    destruct L2' as [Nd Fd]. destruct d2 as [|y d2]; [now elim Nd|]. cbn in E. injection E as <- _. inversion Fd as [|? ? Dx _]; subst. unfold digit in Dx.
    assert (x = 43 \/ x = 45)%N as Ex by (vm_compute in Hx; intuition). lia.
Qed.
Lemma expo_hl : head_longest re_expo.
Proof. apply opt_hl. cbn [rseq]. apply chr_seq_hl. exact sign_plus_hl. Qed.
Lemma expo_some s : exists x, re_match re_expo s = Some x.
Proof. unfold re_expo, ropt. rewrite re_alt. match goal with |- context [match ?x with _ => _ end] => destruct x end; eexists; reflexivity. Qed.
Lemma expo_digit c t : dig c = true -> forall y, In y (rmatch re_expo (c :: t)) -> fst y = [].
Proof.
  intros Hc [e r] I. apply rmatch_lang in I. destruct I as [E L]. apply expo_lang in L. destruct L as [->|(x & sg & ds & -> & Hx & _)]; [reflexivity|].
  cbn in E. injection E as -> _. apply dig_iff in Hc. unfold digit in Hc. lia.
Qed.
Lemma star_expo_hl : head_longest (RSeq (RStar (RChr dig)) re_expo).
Proof.
  intros s m t m' t' E Es L. destruct (expo_some (snd (span dig s))) as [[e r] Ee].
  assert (re_match (RSeq (RStar (RChr dig)) re_expo) s = Some (fst (span dig s) ++ e, r)) as K.
  { apply (re_seq _ _ s _ (snd (span dig s))); [rewrite re_star_chr; now destruct (span dig s)|exact Ee]. }
  rewrite K in E. injection E as <- <-. apply seq_iff in L. destruct L as (ds & e' & -> & L1 & L2).
  apply lang_star in L1. rewrite <- app_assoc in Es. pose proof (span_max dig s ds _ Es L1) as Hm.
  rewrite !app_length. destruct (Nat.eq_dec (length ds) (length (fst (span dig s)))) as [El|Nl].
  - pose proof (span_app dig s) as Sp. rewrite Es in Sp at 3. destruct (app_len_inj _ _ _ _ Sp) as [_ Sr]; [congruence|].
    pose proof (expo_hl _ _ _ _ _ Ee Sr L2). lia.
  - enough (e' = []) by (subst e'; cbn; lia).
    assert (exists y z, e' ++ t' = y :: z /\ dig y = true) as (y & z & Ey & Dy).
    { pose proof (span_app dig s) as Sp. rewrite Es in Sp at 3. pose proof (span_all dig s) as Fa. 
      assert (forall (a b c d : list N), a ++ b = c ++ d -> length c < length a -> exists y z, a = c ++ y :: z) as Q.
      { clear. induction a as [|x a IH]; intros b c d E Hl; [cbn in Hl; lia|]. destruct c as [|w c]; [now exists x, a|]. cbn in E. injection E as <- E. destruct (IH b c d E) as (y & z & ->); [cbn in Hl; lia|]. now exists y, z. }
      destruct (Q _ _ _ _ Sp) as (y & z & Ea); [lia|]. rewrite Ea in Sp, Fa. apply Forall_app in Fa. destruct Fa as [_ Fa]. pose proof (Forall_inv Fa) as Dy.
      rewrite <- app_assoc in Sp. apply app_inv_head in Sp. exists y, (z ++ snd (span dig s)). split; [symmetry; exact Sp|exact Dy]. }
    apply expo_lang in L2. destruct L2 as [->|(x & sg & es & -> & Hx & _)]; [reflexivity|]. cbn in Ey. injection Ey as <- _.
    apply dig_iff in Dy. unfold digit in Dy. lia.
Qed.
Lemma dot_rest_digit b c t : dig c = true -> rmatch (RSeq (is 46) b) (c :: t) = [].
Proof. intros H. unfold is. rewrite rmatch_seq_chr. destruct (N.eqb_spec 46 c) as [<-|]; [discriminate|reflexivity]. Qed.
Lemma real_hl : head_longest re_real.
Proof.
  unfold re_real, re_mant. apply alt_seq_hl. cbn [rseq]. apply alt_hl.
  - apply seq_assoc_hl. apply plus_seq_hl.
    + intros c t H. rewrite rmatch_seq_assoc. now apply dot_rest_digit.
    + apply seq_assoc_hl. apply chr_seq_hl. exact star_expo_hl.
  - apply seq_assoc_hl. apply chr_seq_hl. apply seq_assoc_hl. apply chr_seq_hl. exact star_expo_hl.
  - intros c t c' t' E L L'. apply seq_iff in L. destruct L as (c1 & c2 & -> & L1 & _). apply seq_iff in L1. destruct L1 as (c3 & c4 & -> & L3 & _).
    apply plus_lang in L3. destruct L3 as [N3 F3]. destruct c3 as [|x c3]; [now elim N3|]. inversion F3 as [|? ? Dx _]; subst.
    apply seq_iff in L'. destruct L' as (d1 & d2 & -> & L1' & _). apply seq_iff in L1'. destruct L1' as (d3 & d4 & -> & L3' & _). apply is_lang in L3'. subst d3.
    cbn in E. injection E as -> _. discriminate.
Qed.

(** Nothing before the final letter of an imaginary number is that letter. *)
Lemma before_first (P : N -> Prop) x j s x' j' s' : Forall (fun c => ~ P c) x -> Forall (fun c => ~ P c) x' -> P j -> P j' -> x ++ j :: s = x' ++ j' :: s' -> x = x' /\ j = j' /\ s = s'.
Proof.
  intros Fx. revert x'. induction Fx as [|c x Nc Fx IH]; intros x' Fx' Pj Pj' E.
  - destruct x' as [|y x']; cbn in E; injection E as -> E; [now split; [|split]|]. inversion Fx'; contradiction.
  - destruct x' as [|y x']; cbn in E; injection E as -> E; [contradiction|]. inversion Fx'; subst. destruct (IH x') as (-> & -> & ->); try assumption. now split; [|split].
Qed.
Lemma digit_noj c : digit c -> ~ (c = 74 \/ c = 106)%N.
Proof. unfold digit. lia. Qed.
Lemma real_noj x : real_text x -> Forall (fun c => ~ (c = 74 \/ c = 106)%N) x.
Proof.
  intros (m & e & -> & (a & b & -> & Fa & Fb & _) & He). rewrite !Forall_app. repeat split.
  - eapply Forall_impl; [exact digit_noj|exact Fa].
  - constructor; [lia|constructor].
  - eapply Forall_impl; [exact digit_noj|exact Fb].
  - destruct He as [->|(y & sg & ds & -> & Hy & Hs & [_ Fd])]; [constructor|]. constructor; [lia|]. apply Forall_app. split; [|eapply Forall_impl; [exact digit_noj|exact Fd]].
    destruct Hs as [->|[->| ->]]; repeat constructor; lia.
Qed.
Lemma imag_hl : head_longest re_imaginary.
Proof.
  apply one_length_hl. intros c t c' t' E L L'. apply imag_lang in L, L'. destruct L as (x & j & -> & R & Hj). destruct L' as (x' & j' & -> & R' & Hj').
  assert (forall y, real_text y \/ some_of digit y -> Forall (fun c => ~ (c = 74 \/ c = 106)%N) y) as Q.
  { intros y [Hy|[_ Hy]]; [now apply real_noj|]. eapply Forall_impl; [exact digit_noj|exact Hy]. }
  rewrite <- !app_assoc in E. cbn [app] in E. destruct (before_first (fun c => c = 74 \/ c = 106)%N x j t x' j' t') as (-> & -> & _); auto.
Qed.
