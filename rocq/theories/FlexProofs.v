(** The rules of the compiled scanner: what each of them matches. *)
From Coq Require Import String Ascii List NArith PeanoNat Bool Lia.
From Verif Require Import PyBase PyFacts RegexModel RegexFacts RegexSpec RegexProofs ScanModel ScanFacts ScanSpec ScanProofs ReadModel ParseModel FlexModel FlexSpec.
Import ListNotations.
Open Scope nat_scope.

(** ** The longest match *)
Lemma longest_fold l : forall best, match fold_left longer l best with
  | Some (m, r) => (In (m, r) l \/ best = Some (m, r)) /\ (forall x, In x l -> length (fst x) <= length m) /\ (forall m0 r0, best = Some (m0, r0) -> length m0 <= length m)
  | None => l = [] /\ best = None
  end.
Proof.
  induction l as [|x l IH]; intros best; cbn [fold_left].
  - destruct best as [[m r]|]; [|split; reflexivity]. split; [now right|]. split; [intros x []|]. intros m0 r0 E. injection E as <- <-. lia.
  - specialize (IH (longer best x)). destruct (fold_left longer l (longer best x)) as [[m r]|].
    + destruct IH as (A & B & C). unfold longer in A, C. destruct best as [[m0 r0]|].
      * destruct (length m0 <? length (fst x)) eqn:E.
        -- apply Nat.ltb_lt in E. destruct x as [mx rx]. cbn [fst] in *. specialize (C mx rx eq_refl). split; [|split].
           ++ left. destruct A as [A|A]; [now right|left; now injection A as -> ->].
           ++ intros y [<-|H]; [exact C|now apply B].
           ++ intros a b K. injection K as <- <-. lia.
        -- apply Nat.ltb_ge in E. specialize (C m0 r0 eq_refl). split; [|split].
           ++ destruct A as [A|A]; [left; now right|now right].
           ++ intros y [<-|H]; [lia|now apply B].
           ++ intros a b K. injection K as <- <-. exact C.
      * destruct x as [mx rx]. cbn [fst] in *. specialize (C mx rx eq_refl). split; [|split].
        -- left. destruct A as [A|A]; [now right|left; now injection A as -> ->].
        -- intros y [<-|H]; [exact C|now apply B].
        -- intros a b K. discriminate K.
    + destruct IH as [_ K]. unfold longer in K. destruct best as [[m0 r0]|]; [destruct (_ <? _)|]; discriminate K.
Qed.
Lemma longest_is r s m t : s = m ++ t -> lang r m t -> (forall m' t', s = m' ++ t' -> lang r m' t' -> length m' <= length m) -> longest r s = Some (m, t).
Proof.
  intros E L M. unfold longest. pose proof (longest_fold (rmatch r s) None) as F.
  assert (In (m, t) (rmatch r s)) as I by (apply rmatch_lang; now split).
  destruct (fold_left longer (rmatch r s) None) as [[m1 t1]|]; [|destruct F as [F _]; rewrite F in I; destruct I].
  destruct F as ([A|A] & B & _); [|discriminate A]. specialize (B _ I). cbn [fst] in B.
  apply rmatch_lang in A. destruct A as [E1 L1]. specialize (M _ _ E1 L1). rewrite E in E1.
  assert (length m = length m1) as Hl by lia.
  assert (m = m1 /\ t = t1) as [-> ->]; [|reflexivity].
  clear - E1 Hl. revert m1 Hl E1. induction m as [|c m IH]; intros [|d m1] Hl E1; cbn in *; try lia; [now split|].
  injection E1 as -> E1. destruct (IH m1) as [-> ->]; [lia|exact E1|now split].
Qed.
Lemma longest_none r s : (forall m t, s = m ++ t -> ~ lang r m t) -> longest r s = None.
Proof.
  intros H. unfold longest. destruct (rmatch r s) as [|[m t] l] eqn:E; [reflexivity|]. exfalso.
  assert (In (m, t) (rmatch r s)) as I by (rewrite E; now left). apply rmatch_lang in I. destruct I as [E1 L]. exact (H _ _ E1 L).
Qed.
Lemma longest_nil r s : rmatch r s = [] -> longest r s = None.
Proof. intros H. unfold longest. now rewrite H. Qed.
Lemma longest_one r s x : rmatch r s = [x] -> longest r s = Some x.
Proof. intros H. unfold longest. now rewrite H. Qed.

(** ** Classes *)
Lemma lang_star p m t : lang (RStar (RChr p)) m t <-> Forall (fun c => p c = true) m.
Proof.
  cbn [lang]. split.
  - intros H. induction H as [|c1 c2 t (x & -> & E) _ IH]; [constructor|]. cbn. now constructor.
  - intros H. induction H as [|x m Hx _ IH]; [constructor|]. change (x :: m) with ([x] ++ m). constructor; [now exists x|exact IH].
Qed.
Lemma span_max p s m t : s = m ++ t -> Forall (fun c => p c = true) m -> length m <= length (fst (span p s)).
Proof.
  intros -> H. induction H as [|c m Hc _ IH]; cbn [app length]; [lia|]. cbn [span]. rewrite Hc. destruct (span p (m ++ t)) as [a b]. cbn in *. lia.
Qed.
Lemma span_eq p s : s = fst (span p s) ++ snd (span p s).
Proof. symmetry. apply span_app. Qed.
Lemma longest_star p s : longest (RStar (RChr p)) s = Some (span p s).
Proof.
  rewrite (surjective_pairing (span p s)). apply longest_is; [apply span_eq|apply lang_star, span_all|].
  intros m t E L. apply lang_star in L. now apply (span_max p s m t).
Qed.
(** Something matched first and a class repeated after it. *)
Lemma longest_cons p b c s : longest (RSeq (RChr p) b) (c :: s) = if p c then match longest b s with Some (m, r) => Some (c :: m, r) | None => None end else None.
Proof.
  unfold longest. rewrite rmatch_seq_chr. destruct (p c); [|reflexivity].
  assert (forall l best, fold_left longer (map (pre [c]) l) (match best with Some (m, r) => Some (c :: m, r) | None => None end)
    = match fold_left longer l best with Some (m, r) => Some (c :: m, r) | None => None end) as G.
  { induction l as [|[m r] l IH]; intros best; cbn [map fold_left]; [reflexivity|]. rewrite <- IH. f_equal.
    unfold longer, pre. cbn [fst snd]. destruct best as [[m0 r0]|]; [|reflexivity]. cbn [app length]. destruct (length m0 <? length m) eqn:E.
    - apply Nat.ltb_lt in E. assert (S (length m0) <? S (length m) = true) as -> by (apply Nat.ltb_lt; lia). reflexivity.
    - apply Nat.ltb_ge in E. assert (S (length m0) <? S (length m) = false) as -> by (apply Nat.ltb_ge; lia). reflexivity. }
  exact (G (rmatch b s) None).
Qed.
Lemma longest_nil_cons p b : longest (RSeq (RChr p) b) [] = None.
Proof. reflexivity. Qed.
Lemma longest_plus p s : longest (rplus (RChr p)) s = match span p s with ([], _) => None | x => Some x end.
Proof.
  unfold rplus. destruct s as [|c s]; [reflexivity|]. rewrite longest_cons, longest_star. cbn [span]. destruct (p c); [|reflexivity]. destruct (span p s). reflexivity.
Qed.
Lemma longest_word w s : Forall (fun c => word_char c = true) w ->
  longest (word_ci w) s = if starts_with (lower w) (lower s) then Some (firstn (length w) s, skipn (length w) s) else None.
Proof. intros H. unfold longest. rewrite rmatch_word by exact H. now destruct (starts_with _ _). Qed.
Lemma longest_word_plus w p s : Forall (fun c => word_char c = true) w ->
  longest (RSeq (word_ci w) (rplus (RChr p))) s =
  if starts_with (lower w) (lower s)
  then match span p (skipn (length w) s) with ([], _) => None | x => Some (pre (firstn (length w) s) x) end else None.
Proof.
  intros H. unfold longest. rewrite rmatch_word_seq by exact H. destruct (starts_with _ _); [|reflexivity].
  pose proof (longest_plus p (skipn (length w) s)) as P. unfold longest in P.
  assert (forall l best, fold_left longer (map (pre (firstn (length w) s)) l) (option_map (pre (firstn (length w) s)) best)
    = option_map (pre (firstn (length w) s)) (fold_left longer l best)) as G.
  { induction l as [|[m r] l IH]; intros best; cbn [map fold_left]; [reflexivity|]. rewrite <- IH. f_equal.
    unfold longer, pre. cbn [fst snd option_map]. destruct best as [[m0 r0]|]; [|reflexivity]. cbn [option_map fst snd]. rewrite !app_length. destruct (length m0 <? length m) eqn:E.
    - apply Nat.ltb_lt in E. destruct (_ <? _) eqn:E2; [reflexivity|]. apply Nat.ltb_ge in E2. lia.
    - apply Nat.ltb_ge in E. destruct (_ + _ <? _) eqn:E2; [|reflexivity]. apply Nat.ltb_lt in E2. lia. }
  etransitivity; [exact (G _ None)|]. rewrite P. destruct (span p (skipn (length w) s)) as [[|c a] t]; reflexivity.
Qed.

(** ** Texts of a CIF *)
Lemma plain_app a b : plain_text (a ++ b) <-> plain_text a /\ plain_text b.
Proof.
  unfold plain_text. split.
  - intros H. split; intros c K; apply H, in_or_app; tauto.
  - intros [A B] c K. apply in_app_or in K. destruct K; auto.
Qed.
Lemma plain_cons c s : plain_text (c :: s) <-> ((32 <= c <= 126)%N \/ c = 9%N \/ c = 10%N) /\ plain_text s.
Proof.
  unfold plain_text. split.
  - intros H. split; [apply H; now left|]. intros d K. apply H. now right.
  - intros [A B] d [<-|K]; auto.
Qed.
Lemma name_char1_range c : (33 <= c <= 126)%N -> name_char1 c = true.
Proof.
  intros H. assert (forall n, n < 94 -> name_char1 (N.of_nat (33 + n)) = true) as G.
  { assert (forallb (fun n => name_char1 (N.of_nat (33 + n))) (seq 0 94) = true) as F by (vm_compute; reflexivity).
    intros n Hn. rewrite forallb_forall in F. apply F. apply in_seq. lia. }
  specialize (G (N.to_nat c - 33)). replace (N.of_nat (33 + (N.to_nat c - 33))) with c in G by lia. apply G. lia.
Qed.
Lemma name_char1_only c : name_char1 c = true -> (33 <= c <= 126)%N.
Proof.
  intros H. destruct (N.leb_spec 33 c) as [A|A]; destruct (N.leb_spec c 126) as [B|B]; try (split; assumption); exfalso.
  - revert H. unfold name_char1. assert (forall l, (forall x, In x l -> (x <= 126)%N) -> existsb (N.eqb c) l = false) as G.
    { intros l Hl. apply not_true_iff_false. intros K. apply existsb_exists in K. destruct K as (x & I & E). apply N.eqb_eq in E. subst x. specialize (Hl c I). lia. }
    rewrite !G.
    + assert ((c <=? 57)%N = false) as -> by (apply N.leb_gt; lia). assert ((c <=? 90)%N = false) as -> by (apply N.leb_gt; lia). assert ((c <=? 122)%N = false) as -> by (apply N.leb_gt; lia).
      rewrite !andb_false_r. discriminate.
    + intros x I. vm_compute in I. repeat (destruct I as [<-|I]; [lia|]). destruct I.
    + intros x I. vm_compute in I. repeat (destruct I as [<-|I]; [lia|]). destruct I.
  - assert (forall n, n < 33 -> name_char1 (N.of_nat n) = false) as G.
    { assert (forallb (fun n => negb (name_char1 (N.of_nat n))) (seq 0 33) = true) as F by (vm_compute; reflexivity).
      intros n Hn. rewrite forallb_forall in F. apply negb_true_iff. apply F. apply in_seq. lia. }
    specialize (G (N.to_nat c)). replace (N.of_nat (N.to_nat c)) with c in G by lia. rewrite G in H by lia. discriminate.
  - lia.
Qed.
Lemma nonblank_name c : true_nonblank c = name_char1 c.
Proof. reflexivity. Qed.
(** In a plain text a character is a blank, a newline or one of a name. *)
Lemma plain_cases c : (32 <= c <= 126)%N \/ c = 9%N \/ c = 10%N -> (c = 32%N \/ c = 9%N) \/ c = 10%N \/ name_char1 c = true.
Proof.
  intros [H|[H|H]]; [|left; now right|right; now left]. destruct (N.eq_dec c 32) as [->|N0]; [left; now left|]. right. right. apply name_char1_range. lia.
Qed.
Lemma name_not_space c : name_char1 c = true -> is_space c = false.
Proof.
  intros H. apply name_char1_only in H. unfold is_space. repeat (rewrite orb_false_iff). repeat split;
    try (apply N.eqb_neq; lia); apply andb_false_iff; (left; apply N.leb_gt; lia) || (right; apply N.leb_gt; lia).
Qed.
Lemma blank_is_space c : c = 32%N \/ c = 9%N \/ c = 10%N -> is_space c = true /\ name_char1 c = false.
Proof. intros [->|[->| ->]]; split; reflexivity. Qed.
(** Then runs of non-blank characters and of characters of names are the same. *)
Lemma span_ext (p q : N -> bool) s : (forall c, In c s -> p c = q c) -> span p s = span q s.
Proof.
  induction s as [|c s IH]; intros H; [reflexivity|]. cbn [span]. rewrite (H c) by now left. rewrite IH by (intros d K; apply H; now right). reflexivity.
Qed.
Lemma plain_ns c : (32 <= c <= 126)%N \/ c = 9%N \/ c = 10%N -> ns c = name_char1 c.
Proof.
  intros H. unfold ns. destruct (plain_cases c H) as [[->| ->]|[->|K]]; try reflexivity. rewrite K, (name_not_space c K). reflexivity.
Qed.
Lemma plain_true_char c : (32 <= c <= 126)%N \/ c = 9%N \/ c = 10%N -> true_char c = negb (c =? 10)%N.
Proof.
  intros H. unfold true_char. rewrite nonblank_name. destruct (plain_cases c H) as [[->| ->]|[->|K]]; try reflexivity. rewrite K. cbn [orb].
  apply name_char1_only in K. symmetry. apply negb_true_iff, N.eqb_neq. lia.
Qed.
