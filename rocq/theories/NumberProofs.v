(** Reading numbers: which numeral a text begins with, and its value. *)
From Coq Require Import String Ascii List NArith ZArith QArith Bool Lia Setoid.
From Verif Require Import PyBase PyFacts RegexModel RegexFacts NumberModel NumberSpec.
Import ListNotations.
Open Scope nat_scope.
Local Opaque N.add.

(** ** Digits *)
Lemma digit_text d : (d < 10)%N -> is_digit (48 + d) = true.
Proof. intros H. unfold is_digit. apply andb_true_iff. split; apply N.leb_le; lia. Qed.
Lemma dtext_digits ds : all_digits ds -> Forall (fun c => is_digit c = true) (dtext ds).
Proof. intros H. unfold dtext. apply Forall_map. eapply Forall_impl; [|exact H]. intros d Hd. now apply digit_text. Qed.
Lemma digits_dtext s : Forall (fun c => is_digit c = true) s -> exists ds, s = dtext ds /\ all_digits ds.
Proof.
  induction 1 as [|c s Hc Hs (ds & -> & Hd)]; [exists []; split; [reflexivity|constructor]|].
  unfold is_digit in Hc. apply andb_true_iff in Hc. destruct Hc as [A B]. apply N.leb_le in A. apply N.leb_le in B.
  exists ((c - 48)%N :: ds). split; [|constructor; [lia|exact Hd]]. cbn [dtext map]. f_equal. lia.
Qed.
Lemma dtext_inj a b : dtext a = dtext b -> a = b.
Proof.
  revert b. induction a as [|x a IH]; intros [|y b] H; [reflexivity|discriminate|discriminate|].
  cbn [dtext map] in H. injection H as H1 H2.
  f_equal; [lia|]. now apply IH.
Qed.
Lemma dtext_length a : length (dtext a) = length a.
Proof. apply map_length. Qed.
Lemma dtext_nil a : dtext a = [] -> a = [].
Proof. destruct a; [reflexivity|discriminate]. Qed.

Definition nodigit (s : list N) : Prop := match s with [] => True | c :: _ => is_digit c = false end.
Definition starts (c : N) (s : list N) : Prop := exists r, s = c :: r.

(** ** Comparing two numerals at the start of a text *)
Lemma digits_cmp a b A B : all_digits a -> all_digits b -> nodigit A -> dtext a ++ A = dtext b ++ B ->
  (a = b /\ A = B) \/ (length b < length a /\ ~ nodigit B).
Proof.
  intros Ha. revert b. induction Ha as [|x a Hx Ha IH]; intros b Hb HA H.
  - destruct b as [|y b]; [left; now split|]. exfalso. cbn in H. subst A. cbn in HA. inversion Hb; subst. rewrite digit_text in HA by assumption. discriminate.
  - destruct b as [|y b].
    + right. split; [cbn; lia|]. cbn in H. rewrite <- H. cbn. rewrite digit_text by assumption. discriminate.
    + inversion Hb; subst. cbn [dtext map app] in H. injection H as Hxy H. assert (x = y) as -> by lia.
      destruct (IH b) as [[-> ->]|[L D]]; [assumption|assumption|exact H|left; now split|right; split; [cbn; lia|exact D]].
Qed.

(** What follows the digits of a numeral. *)
Definition exp_like (s : list N) : Prop :=
  exists n rest, proper n /\ n_exp n <> None /\ s = exp_text n ++ rest.
Definition su_like (s : list N) : Prop :=
  exists e rest, all_digits e /\ e <> [] /\ s = 40%N :: dtext e ++ 41%N :: rest.
Record stops (n : numeral) (rest : list N) : Prop := {
  s_exp : n_exp n <> None -> nodigit rest;
  s_noexp : n_exp n = None -> ~ exp_like rest;
  s_nosu : n_exp n = None -> n_su n = None -> ~ su_like rest;
  s_base : n_exp n = None -> n_su n = None -> nodigit rest;
  s_dot : n_exp n = None -> n_su n = None -> n_frac n = None -> ~ starts 46 rest
}.
Lemma stops_nil n : stops n [].
Proof.
  split; [intros _; exact I| | |intros _ _; exact I|intros _ _ _ [r E]; discriminate].
  - intros _ (m & rest & _ & E & H). unfold exp_text in H. destruct (n_exp m) as [[[l g] x]|]; [discriminate|now apply E].
  - intros _ _ (e & rest & _ & _ & H). discriminate.
Qed.

Lemma letter_nodigit l : In l [101; 69; 100; 68]%N -> is_digit l = false /\ l <> 46%N /\ l <> 40%N /\ l <> 45%N.
Proof. intros [<-|[<-|[<-|[<-|[]]]]]; repeat split; discriminate. Qed.

(** The text after the point and digits, and what it can begin with. *)
Definition tail (n : numeral) (rest : list N) : list N := su_text n ++ exp_text n ++ rest.
Lemma tail_cases n rest : proper n ->
  (starts 40 (tail n rest) /\ n_su n <> None) \/
  (n_su n = None /\ exists l r, In l [101; 69; 100; 68]%N /\ tail n rest = l :: r /\ n_exp n <> None) \/
  (n_su n = None /\ n_exp n = None /\ tail n rest = rest).
Proof.
  intros P. unfold tail, su_text, exp_text. destruct (n_su n) as [e|] eqn:Es.
  - left. split; [eexists; reflexivity|discriminate].
  - right. destruct (n_exp n) as [[[l g] x]|] eqn:Ee; [left|right; now repeat split].
    split; [reflexivity|]. exists l. eexists. split; [now apply (p_exp _ P _ _ _ Ee)|]. split; [reflexivity|discriminate].
Qed.
Lemma tail_nodigit n rest : proper n -> stops n rest -> nodigit (tail n rest).
Proof.
  intros P S. destruct (tail_cases n rest P) as [[[r ->] _]|[(_ & l & r & Hl & -> & _)|(Es & Ee & ->)]].
  - reflexivity.
  - apply letter_nodigit. exact Hl.
  - now apply (s_base _ _ S).
Qed.
Lemma tail_nodot n rest : proper n -> n_frac n = None -> stops n rest -> ~ starts 46 (tail n rest).
Proof.
  intros P F S [r0 H]. destruct (tail_cases n rest P) as [[[r E] _]|[(_ & l & r & Hl & E & _)|(Es & Ee & E)]]; rewrite E in H.
  - discriminate.
  - injection H as -> _. destruct (letter_nodigit _ Hl) as (_ & A & _). now apply A.
  - apply (s_dot _ _ S Ee Es F). now exists r0.
Qed.
(** If the tail begins with a digit or a point there is neither s.u. nor exponent. *)
Lemma tail_empty n rest c r : proper n -> tail n rest = c :: r -> (is_digit c = true \/ c = 46%N) -> su_text n = [] /\ exp_text n = [].
Proof.
  intros P H Hc. destruct (tail_cases n rest P) as [[[r0 E] _]|[(_ & l & r0 & Hl & E & _)|(Es & Ee & E)]].
  - rewrite E in H. injection H as <- _. destruct Hc as [Hc|Hc]; discriminate.
  - rewrite E in H. injection H as <- _. destruct (letter_nodigit _ Hl) as (A & B & _). destruct Hc as [Hc|Hc]; [rewrite Hc in A; discriminate|now elim B].
  - unfold su_text, exp_text. now rewrite Es, Ee.
Qed.

(** s.u. and exponent. *)
Lemma exp_cmp n n' rest rest' : proper n -> proper n' -> stops n rest ->
  exp_text n ++ rest = exp_text n' ++ rest' ->
  n_exp n' = n_exp n \/ length (exp_text n') < length (exp_text n).
Proof.
  intros P P' S H. destruct (n_exp n) as [[[l g] x]|] eqn:Ee; destruct (n_exp n') as [[[l' g'] x']|] eqn:Ee'.
  - destruct (p_exp _ P _ _ _ Ee) as (Hl & Hx & Nx). destruct (p_exp _ P' _ _ _ Ee') as (Hl' & Hx' & Nx').
    assert (nodigit rest) as Dr by (apply (s_exp _ _ S); rewrite Ee; discriminate).
    unfold exp_text in *. rewrite Ee, Ee' in *. cbn [app length] in *. injection H as -> H. rewrite <- !app_assoc in H.
    assert (g = g' /\ dtext x ++ rest = dtext x' ++ rest') as [-> E].
    { destruct x as [|d x]; [now elim Nx|]. destruct x' as [|d' x']; [now elim Nx'|].
      apply Forall_inv in Hx. apply Forall_inv in Hx'.
      destruct g as [[|]|], g' as [[|]|]; cbn [app dtext map] in H; try (injection H as H H2; exfalso; lia); try discriminate; (split; [reflexivity|]); cbn [dtext map app]; congruence. }
    destruct (digits_cmp _ _ _ _ Hx Hx' Dr E) as [[-> _]|[L _]]; [now left|right].
    rewrite !app_length, !dtext_length. lia.
  - right. unfold exp_text. rewrite Ee, Ee'. cbn. lia.
  - exfalso. assert (exp_text n = []) as En by (unfold exp_text; now rewrite Ee). rewrite En in H. cbn [app] in H. apply (s_noexp _ _ S Ee). exists n', rest'. split; [exact P'|]. split; [rewrite Ee'; discriminate|exact H].
  - now left.
Qed.
Lemma su_cmp n n' rest rest' : proper n -> proper n' -> stops n rest -> tail n rest = tail n' rest' ->
  (n_su n' = n_su n /\ n_exp n' = n_exp n) \/ length (su_text n' ++ exp_text n') < length (su_text n ++ exp_text n).
Proof.
  intros P P' S H. rewrite !app_length. unfold tail in H. destruct (n_su n) as [e|] eqn:Es; destruct (n_su n') as [e'|] eqn:Es'.
  - destruct (p_su _ P _ Es) as (He & Ne). destruct (p_su _ P' _ Es') as (He' & Ne').
    assert (su_text n = 40%N :: dtext e ++ [41%N]) as T by (unfold su_text; now rewrite Es).
    assert (su_text n' = 40%N :: dtext e' ++ [41%N]) as T' by (unfold su_text; now rewrite Es').
    rewrite T, T' in *. cbn [app] in H. injection H as H. rewrite <- !app_assoc in H.
    destruct (digits_cmp _ _ _ _ He He' (eq_refl : nodigit (41%N :: exp_text n ++ rest)) H) as [[-> E]|[_ D]]; [|exfalso; now apply D].
    cbn [app] in E. injection E as E. destruct (exp_cmp n n' rest rest' P P' S E) as [<-|L]; [left; now split|right; lia].
  - right. assert (su_text n = 40%N :: dtext e ++ [41%N]) as T by (unfold su_text; now rewrite Es).
    assert (su_text n' = []) as T' by (unfold su_text; now rewrite Es'). rewrite T, T' in *. cbn [app] in H.
    assert (exp_text n' = []) as ->.
    { unfold exp_text in *. destruct (n_exp n') as [[[l g] x]|] eqn:Ee'; [|reflexivity]. exfalso. injection H as H _. subst l.
      destruct (p_exp _ P' _ _ _ Ee') as (Hl & _). destruct (letter_nodigit _ Hl) as (_ & _ & A & _). now apply A. }
    cbn. lia.
  - exfalso. destruct (p_su _ P' _ Es') as (He' & Ne').
    assert (su_text n' = 40%N :: dtext e' ++ [41%N]) as T' by (unfold su_text; now rewrite Es').
    assert (su_text n = []) as T by (unfold su_text; now rewrite Es). rewrite T, T' in H. cbn [app] in H.
    destruct (n_exp n) as [[[l g] x]|] eqn:Ee.
    + unfold exp_text in H at 1. rewrite Ee in H. injection H as -> _. destruct (p_exp _ P _ _ _ Ee) as (Hl & _). destruct (letter_nodigit _ Hl) as (_ & _ & A & _). now apply A.
    + assert (exp_text n = []) as En by (unfold exp_text; now rewrite Ee). rewrite En in H. apply (s_nosu _ _ S Ee Es). exists e', (exp_text n' ++ rest'). split; [exact He'|]. split; [exact Ne'|]. cbn [app] in H. rewrite H. now rewrite <- app_assoc.
  - assert (su_text n = []) as T by (unfold su_text; now rewrite Es). assert (su_text n' = []) as T' by (unfold su_text; now rewrite Es').
    rewrite T, T' in *. cbn [app] in H. destruct (exp_cmp n n' rest rest' P P' S H) as [<-|L]; [left; now split|right; cbn; lia].
Qed.

Lemma text_length n : length (text n) = length (base_text n) + length (su_text n ++ exp_text n).
Proof. unfold text. now rewrite !app_length. Qed.
Lemma base_length n : length (base_text n) = (if n_neg n then 1 else 0) + length (n_int n) + match n_frac n with Some f => Datatypes.S (length f) | None => 0 end.
Proof.
  unfold base_text. rewrite !app_length, dtext_length. destruct (n_neg n), (n_frac n) as [f|]; cbn [length]; rewrite ?dtext_length; lia.
Qed.
Lemma nodigit_not B : ~ nodigit B -> exists c r, B = c :: r /\ is_digit c = true.
Proof. destruct B as [|c r]; cbn; [intros H; now elim H|]. intros H. exists c, r. split; [reflexivity|]. destruct (is_digit c); [reflexivity|now elim H]. Qed.
Lemma first_char n rest : proper n -> n_neg n = false -> exists c r, text n ++ rest = c :: r /\ c <> 45%N.
Proof.
  intros P Hn. unfold text, base_text. rewrite Hn. cbn [app]. destruct (n_int n) as [|d ds] eqn:Ei.
  - destruct (p_some _ P) as [H|(f & -> & _)]; [now elim H|]. cbn. eexists; eexists; split; [reflexivity|discriminate].
  - pose proof (p_int _ P) as Hd. rewrite Ei in Hd. inversion Hd; subst. cbn. eexists; eexists; split; [reflexivity|lia].
Qed.

Theorem numerals_cmp n n' rest rest' : proper n -> proper n' -> stops n rest -> text n ++ rest = text n' ++ rest' ->
  n' = n \/ length (text n') < length (text n).
Proof.
  intros P P' S H.
  assert (n_neg n' = n_neg n) as Hneg.
  { destruct (n_neg n) eqn:E, (n_neg n') eqn:E'; try reflexivity; exfalso.
    - destruct (first_char n' rest' P' E') as (c & r & Hc & Nc). rewrite Hc in H. unfold text, base_text in H. rewrite E in H. cbn in H. injection H as H _. now elim Nc.
    - destruct (first_char n rest P E) as (c & r & Hc & Nc). rewrite Hc in H. unfold text, base_text in H. rewrite E' in H. cbn in H. injection H as H _. now elim Nc. }
  assert (dtext (n_int n) ++ match n_frac n with Some f => 46%N :: dtext f | None => [] end ++ tail n rest =
          dtext (n_int n') ++ match n_frac n' with Some f => 46%N :: dtext f | None => [] end ++ tail n' rest') as H1.
  { unfold text, base_text in H. rewrite Hneg in H. unfold tail. rewrite <- !app_assoc in H. destruct (n_neg n); cbn [app] in H; [injection H as H|]; exact H. }
  clear H. rewrite !text_length, !base_length, Hneg.
  set (A := match n_frac n with Some f => 46%N :: dtext f | None => [] end ++ tail n rest) in H1.
  assert (nodigit A) as HA.
  { unfold A. destruct (n_frac n); [reflexivity|]. cbn [app]. now apply tail_nodigit. }
  destruct (digits_cmp _ _ _ _ (p_int _ P) (p_int _ P') HA H1) as [[Ei E2]|[L D]].
  - rewrite Ei. unfold A in E2. destruct (n_frac n) as [f|] eqn:Ef; destruct (n_frac n') as [f'|] eqn:Ef'.
    + cbn [app] in E2. injection E2 as E2.
      destruct (digits_cmp _ _ _ _ (p_frac _ P _ Ef) (p_frac _ P' _ Ef') (tail_nodigit _ _ P S) E2) as [[-> E3]|[L D]].
      * destruct (su_cmp n n' rest rest' P P' S E3) as [[Es Ee]|L]; [left|right; lia].
        destruct n as [a b c d e], n' as [a' b' c' d' e']. cbn in *. congruence.
      * right. destruct (nodigit_not _ D) as (c & r & Ec & Hc). destruct (tail_empty _ _ _ _ P' Ec (or_introl Hc)) as [-> ->]. rewrite !app_length. cbn [length app]. lia.
    + right. cbn [app] in E2. symmetry in E2. destruct (tail_empty _ _ _ _ P' E2 (or_intror eq_refl)) as [-> ->]. rewrite !app_length. cbn [length app]. lia.
    + exfalso. cbn [app] in E2. apply (tail_nodot n rest P Ef S). now exists (dtext f' ++ tail n' rest').
    + cbn [app] in E2. destruct (su_cmp n n' rest rest' P P' S E2) as [[Es Ee]|L]; [left|right; lia].
      destruct n as [a b c d e], n' as [a' b' c' d' e']. cbn in *. congruence.
  - right. destruct (nodigit_not _ D) as (c & r & Ec & Hc). destruct (n_frac n') as [f'|] eqn:Ef'.
    + cbn [app] in Ec. injection Ec as <- _. discriminate.
    + cbn [app] in Ec. destruct (tail_empty _ _ _ _ P' Ec (or_introl Hc)) as [-> ->]. rewrite !app_length. cbn [length app]. lia.
Qed.
