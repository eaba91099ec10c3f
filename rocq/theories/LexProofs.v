(** Facts about the regular expressions of the dREL lexer: what they match, and
    that the first match is the longest one. *)
From Coq Require Import String Ascii List NArith PeanoNat Bool Lia.
From Verif Require Import PyBase PyFacts RegexModel RegexFacts ScanFacts RegexSpec RegexProofs FlexProofs FlexProofs3 LexModel LexSpec.
Import ListNotations.
Open Scope nat_scope.

(** ** Longest first matches *)
Definition head_longest (r : re) : Prop :=
  forall s m t m' t', re_match r s = Some (m, t) -> s = m' ++ t' -> lang r m' t' -> length m' <= length m.
(** All matches of a text are equally long. *)
Definition one_length (r : re) : Prop :=
  forall c t c' t', c ++ t = c' ++ t' -> lang r c t -> lang r c' t' -> length c = length c'.
Lemma one_length_hl r : one_length r -> head_longest r.
Proof.
  intros H s m t m' t' E Es L. pose proof (re_match_lang r s) as K. rewrite E in K. destruct K as [E1 L1].
  rewrite (H m t m' t'); [apply le_n| |exact L1|exact L]. congruence.
Qed.
Lemma app_len_inj {A} (a b c d : list A) : a ++ b = c ++ d -> length a = length c -> a = c /\ b = d.
Proof.
  revert c. induction a as [|x a IH]; intros [|y c] E L; try discriminate; [now split|].
  cbn in E. injection E as -> E. cbn in L. injection L as L. destruct (IH c E L) as [-> ->]. now split.
Qed.
(** The choice between expressions that never both match. *)
Lemma alt_hl a b : head_longest a -> head_longest b ->
  (forall c t c' t', c ++ t = c' ++ t' -> lang a c t -> lang b c' t' -> False) -> head_longest (RAlt a b).
Proof.
  intros Ha Hb D s m t m' t' E Es L. rewrite re_alt in E. pose proof (re_match_lang a s) as K.
  destruct (re_match a s) as [[c r]|] eqn:Ea.
  - injection E as -> ->. destruct K as [E1 L1]. destruct L as [L|L]; [exact (Ha s m t m' t' Ea Es L)|].
    exfalso. apply (D m t m' t'); [congruence|exact L1|exact L].
  - destruct L as [L|L]; [elim (K m' t' Es L)|]. exact (Hb s m t m' t' E Es L).
Qed.
Lemma star_hl p : head_longest (RStar (RChr p)).
Proof.
  intros s m t m' t' E Es L. rewrite re_star_chr in E. injection E as E. apply lang_star in L.
  pose proof (span_max p s m' t' Es L) as H. rewrite E in H. exact H.
Qed.
Lemma chr_seq_hl p b : head_longest b -> head_longest (RSeq (RChr p) b).
Proof.
  intros Hb s m t m' t' E Es L. destruct L as (c1 & c2 & -> & (x & -> & Px) & L2).
  cbn [app] in Es. subst s. rewrite re_seq_chr, Px in E. destruct (re_match b (c2 ++ t')) as [[m2 t2]|] eqn:Eb; [|discriminate].
  cbn in E. injection E as <- <-. cbn [app length]. apply le_n_S. exact (Hb _ _ _ _ _ Eb eq_refl L2).
Qed.
Lemma plus_hl p : head_longest (rplus (RChr p)).
Proof. apply chr_seq_hl, star_hl. Qed.

(** ** Texts *)
Lemma is_lang x c t : lang (is x) c t <-> c = [x].
Proof. cbn. split; [intros (y & -> & E); apply N.eqb_eq in E; now subst|intros ->; exists x; now rewrite N.eqb_refl]. Qed.
Lemma lit_lang w c t : lang (lit w) c t <-> c = w.
Proof.
  unfold lit. revert c t. induction w as [|x w IH]; intros c t; [reflexivity|]. destruct w as [|y w].
  - apply is_lang.
  - change (lang (RSeq (is x) (rseq (map is (y :: w)))) c t <-> c = x :: y :: w).
    change (lang (RSeq (is x) (rseq (map is (y :: w)))) c t) with
      (exists c1 c2, c = c1 ++ c2 /\ lang (is x) c1 (c2 ++ t) /\ lang (rseq (map is (y :: w))) c2 t). split.
    + intros (c1 & c2 & -> & L1 & L2). apply is_lang in L1. subst c1. apply IH in L2. now subst.
    + intros ->. exists [x], (y :: w). split; [reflexivity|]. split; [now apply is_lang|]. now apply IH.
Qed.
Lemma lit_one w : one_length (lit w).
Proof. intros c t c' t' _ L L'. apply lit_lang in L, L'. now subst. Qed.
Lemma lit_hl w : head_longest (lit w).
Proof. apply one_length_hl, lit_one. Qed.
Lemma plus_lang p c t : lang (rplus (RChr p)) c t <-> c <> [] /\ Forall (fun x => p x = true) c.
Proof.
  change (lang (rplus (RChr p)) c t) with (exists c1 c2, c = c1 ++ c2 /\ lang (RChr p) c1 (c2 ++ t) /\ lang (RStar (RChr p)) c2 t). split.
  - intros (c1 & c2 & -> & (x & -> & Px) & L). apply lang_star in L. split; [discriminate|now constructor].
  - intros [N0 F]. destruct c as [|x c]; [now elim N0|]. inversion F as [|? ? Px F']; subst. exists [x], c.
    split; [reflexivity|]. split; [now exists x|now apply lang_star].
Qed.
Lemma one_of_lang cs c t : lang (one_of cs) c t <-> exists x, c = [x] /\ In x cs.
Proof.
  cbn. split; intros (x & -> & H); exists x; (split; [reflexivity|]).
  - apply existsb_exists in H. destruct H as (y & Hy & E). apply N.eqb_eq in E. now subst.
  - apply existsb_exists. exists x. split; [exact H|apply N.eqb_refl].
Qed.
Lemma Forall_iff {A} (P Q : A -> Prop) l : (forall x, P x <-> Q x) -> Forall P l <-> Forall Q l.
Proof. intros H. split; apply Forall_impl; intros x; apply H. Qed.

Lemma range_iff a b c : range a b c = true <-> (a <= c <= b)%N.
Proof. unfold range. rewrite andb_true_iff, !N.leb_le. lia. Qed.
Lemma dig_iff c : dig c = true <-> digit c.
Proof. apply range_iff. Qed.
Lemma hexdig_iff c : hexdig c = true <-> exists d, digit_is c d.
Proof.
  unfold hexdig. rewrite !orb_true_iff, !range_iff. unfold digit_is. split.
  - intros [[H|H]|H]; eexists; [left|right; left|right; right]; split; try exact H; reflexivity.
  - intros (d & [[H _]|[[H _]|[H _]]]); tauto.
Qed.
Lemma alpha_iff c : alpha c = true <-> letter_ch c.
Proof. unfold alpha. rewrite !orb_true_iff, !range_iff. reflexivity. Qed.
Lemma tag_iff c : tag_char c = true <-> tag_ch c.
Proof. unfold tag_char, tag_ch. rewrite !orb_true_iff, alpha_iff, dig_iff, N.eqb_eq. tauto. Qed.
Lemma id_iff c : id_char c = true <-> name_ch c.
Proof. unfold id_char, name_ch. rewrite !orb_true_iff, alpha_iff, dig_iff, !N.eqb_eq. tauto. Qed.
Lemma space_iff c : is_space c = true <-> white c.
Proof. unfold is_space, white. rewrite !orb_true_iff, !andb_true_iff, !N.leb_le, !N.eqb_eq. tauto. Qed.
Lemma letter_lang x c t : lang (letter x) c t <-> exists y, c = [y] /\ either x y.
Proof.
  unfold letter. change (lang (RAlt (is x) (is (x + 32))) c t) with (lang (is x) c t \/ lang (is (x + 32)) c t). rewrite !is_lang. unfold either. split.
  - intros [->| ->]; eexists; split; try reflexivity; tauto.
  - intros (y & -> & [->| ->]); tauto.
Qed.

Lemma some_iff p P c t : (forall x, p x = true <-> P x) -> lang (rplus (RChr p)) c t <-> some_of P c.
Proof. intros H. rewrite plus_lang. unfold some_of. rewrite (Forall_iff _ P) by exact H. reflexivity. Qed.
Lemma run_iff p P c t : (forall x, p x = true <-> P x) -> lang (RStar (RChr p)) c t <-> Forall P c.
Proof. intros H. rewrite lang_star. now apply Forall_iff. Qed.
Lemma seq_iff a b c t : lang (RSeq a b) c t <-> exists c1 c2, c = c1 ++ c2 /\ lang a c1 (c2 ++ t) /\ lang b c2 t.
Proof. reflexivity. Qed.
Lemma alt_iff a b c t : lang (RAlt a b) c t <-> lang a c t \/ lang b c t.
Proof. reflexivity. Qed.

(** ** Numbers *)
Lemma mant_lang c t : lang re_mant c t <-> mantissa c.
Proof.
  unfold re_mant, mantissa. cbn [rseq]. rewrite alt_iff. rewrite seq_iff. split.
  - intros [(a & c2 & -> & L1 & L2)|L].
    + rewrite seq_iff in L2. destruct L2 as (c3 & b & -> & L3 & L4). apply is_lang in L3. subst c3.
      apply (some_iff _ digit) in L1; [|exact dig_iff]. apply (run_iff _ digit) in L4; [|exact dig_iff].
      exists a, b. destruct L1 as [Na Fa]. repeat split; try assumption. intros E. apply app_eq_nil in E. now destruct E.
    + rewrite seq_iff in L. destruct L as (c1 & b & -> & L1 & L2). apply is_lang in L1. subst c1.
      apply (some_iff _ digit) in L2; [|exact dig_iff]. destruct L2 as [Nb Fb]. exists [], b. repeat split; try assumption. constructor.
  - intros (a & b & -> & Fa & Fb & Ne). destruct a as [|x a].
    + right. rewrite seq_iff. exists [46%N], b. split; [reflexivity|]. split; [now apply is_lang|]. apply (some_iff _ digit); [exact dig_iff|]. now split.
    + left. exists (x :: a), ([46%N] ++ b). split; [reflexivity|]. split; [apply (some_iff _ digit); [exact dig_iff|]; split; [discriminate|exact Fa]|].
      rewrite seq_iff. exists [46%N], b. split; [reflexivity|]. split; [now apply is_lang|]. now apply (run_iff _ digit); [exact dig_iff|].
Qed.
Lemma expo_lang c t : lang re_expo c t <-> exponent c.
Proof.
  unfold re_expo, ropt, exponent. cbn [rseq]. rewrite alt_iff, seq_iff. split.
  - intros [(c1 & c2 & -> & L1 & L2)|E]; [|now left]. right. apply one_of_lang in L1. destruct L1 as (e & -> & He).
    rewrite seq_iff in L2. destruct L2 as (sg & ds & -> & L2 & L3). rewrite alt_iff in L2. apply (some_iff _ digit) in L3; [|exact dig_iff].
    exists e, sg, ds. split; [reflexivity|]. split; [destruct He as [<-|[<-|[]]]; [now left|now right]|]. split; [|exact L3].
    destruct L2 as [L2|E]; [|now left]. apply one_of_lang in L2. destruct L2 as (x & -> & [<-|[<-|[]]]); [right; now left|right; now right].
  - intros [->|(e & sg & ds & -> & He & Hs & Hd)]; [now right|]. left. exists [e], (sg ++ ds). split; [reflexivity|].
    split; [apply one_of_lang; exists e; split; [reflexivity|]; destruct He as [->| ->]; cbn; tauto|].
    rewrite seq_iff. exists sg, ds. split; [reflexivity|]. split; [|now apply (some_iff _ digit); [exact dig_iff|]].
    rewrite alt_iff. destruct Hs as [->|[->| ->]]; [now right|left|left]; apply one_of_lang; eexists; (split; [reflexivity|]); cbn; tauto.
Qed.
Lemma real_lang c t : lang re_real c t <-> real_text c.
Proof.
  unfold re_real, real_text. rewrite seq_iff. split; intros (m & e & -> & A & B); exists m, e; split; try reflexivity; split.
  - now apply mant_lang in A. - now apply expo_lang in B. - now apply mant_lang. - now apply (expo_lang e t).
Qed.
Lemma imag_lang c t : lang re_imaginary c t <-> shape IMAGINARY c t.
Proof.
  unfold re_imaginary. rewrite seq_iff. cbn [shape]. split.
  - intros (x & c2 & -> & L1 & L2). apply one_of_lang in L2. destruct L2 as (j & -> & Hj). exists x, j. split; [reflexivity|]. split.
    + apply alt_iff in L1. destruct L1 as [L1|L1]; [left; now apply real_lang in L1|right; now apply (some_iff _ digit) in L1; [|exact dig_iff]].
    + destruct Hj as [<-|[<-|[]]]; [now right|now left].
  - intros (x & j & -> & [R|R] & Hj); exists x, [j]; (split; [reflexivity|]); (split; [apply alt_iff|apply one_of_lang; exists j; split; [reflexivity|]; destruct Hj as [->| ->]; cbn; tauto]).
    + left. now apply real_lang. + right. now apply (some_iff _ digit); [exact dig_iff|].
Qed.

Lemma digits_app_eq a b x s s' : Forall digit a -> Forall digit b -> ~ digit x -> (forall y s'', s' = y :: s'' -> ~ digit y) -> a ++ x :: s = b ++ s' -> a = b /\ s' = x :: s.
Proof.
  intros Fa. revert b. induction Fa as [|c a Dc Fa IH]; intros b Fb Nx Ns E.
  - destruct b as [|y b]; [now split|]. cbn in E. injection E as <- E. inversion Fb; contradiction.
  - destruct b as [|y b].
    + cbn in E. subst s'. elim (Ns c (a ++ x :: s)); [reflexivity|exact Dc].
    + cbn in E. injection E as <- E. inversion Fb; subst. destruct (IH b) as [-> ->]; try assumption. now split.
Qed.
