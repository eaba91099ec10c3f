(** Lemmas about StarBlockModel.v: acceptance of names and values. *)
From Coq Require Import String Ascii List NArith ZArith Bool Lia Permutation.
From Verif Require Import PyBase PyFacts StarBlockModel StarBlockSpec StarBlockProofs StarBlockProofs2
  StarBlockProofs3 StarBlockProofs4.
Import ListNotations.

Lemma ascii_name_iff c : ascii_name_char c = true <-> printing_ascii c.
Proof.
  unfold ascii_name_char, printing_ascii. rewrite andb_true_iff, !N.leb_le. reflexivity.
Qed.

Lemma ascii_val_iff c : ascii_val_char c = true <-> cif1_text_char c.
Proof.
  unfold ascii_val_char, cif1_text_char.
  rewrite !orb_true_iff, andb_true_iff, !N.eqb_eq, !N.leb_le. tauto.
Qed.

Lemma uni_val_iff c : uni_val_char c = true <-> unicode_text_char c.
Proof.
  unfold uni_val_char, unicode_text_char. rewrite !orb_true_iff, ascii_val_iff, !andb_true_iff, !N.leb_le.
  split.
  - intros [[[[H|H]|H]|H]|H]; [left; assumption|right..]; repeat split; lia.
  - intros [H|(H1 & H2 & H3 & H4 & H5)]; [auto|].
    destruct (N.le_gt_cases c 0xD7FF); [left; left; left; right; lia|].
    destruct (N.le_gt_cases c 0xFDCF); [left; left; right; lia|].
    destruct (N.le_gt_cases c 0xFFFD); [left; right; lia|]. right; lia.
Qed.

Lemma check_data_name_iff m un n :
  check_data_name m un n = Ret tt <->
  (exists r, n = 95%N :: r) /\ ((m <= 0)%Z \/ (Z.of_nat (length n) <= m)%Z) /\
  forall c, In c n -> (if un then uni_name_char else ascii_name_char) c = true.
Proof.
  unfold check_data_name.
  destruct (Z.ltb_spec 0 m) as [M|M], (Z.ltb_spec m (Z.of_nat (length n))) as [L|L]; cbn [andb].
  { split; [discriminate|]. intros (_ & [H|H] & _); lia. }
  all: destruct n as [|c r];
    [split; [discriminate|intros ((r & H) & _); discriminate]|];
    destruct (N.eqb_spec c 95) as [->|NE]; cbn [negb];
    [|split; [discriminate|intros ((r' & H) & _); congruence]];
    destruct (forallb _ (95%N :: r)) eqn:F;
    [ rewrite forallb_forall in F; split; [intros _; split; [eauto|split; [lia|assumption]]|reflexivity]
    | split; [discriminate|]; intros (_ & _ & H); apply forallb_forall in H; congruence ].
Qed.

Lemma check_name_ascii m n :
  check_data_name m false n = Ret tt <->
  (exists r, n = 95%N :: r) /\ ((m <= 0)%Z \/ (Z.of_nat (length n) <= m)%Z) /\ Forall printing_ascii n.
Proof.
  rewrite check_data_name_iff, Forall_forall.
  split; intros (A & B & C); (split; [assumption|split; [assumption|intros c I; apply ascii_name_iff; auto]]).
Qed.

Lemma bmp_nonchar c : (c <= 0xFFFF)%N -> (N.land c 0xFFFE = 0xFFFE%N <-> c = 0xFFFE%N \/ c = 0xFFFF%N).
Proof.
  intros B. split.
  - intros E. assert (L : N.land c 0xFFFF = c).
    { change 0xFFFF%N with (N.ones 16). rewrite N.land_ones. apply N.mod_small. cbn; lia. }
    assert (S : c = (N.land c 0xFFFE + N.land c 1)%N).
    { assert (Z : N.land (N.land c 0xFFFE) (N.land c 1) = 0%N).
      { apply N.bits_inj. intros i. rewrite !N.land_spec, N.bits_0.
        destruct (N.eq_dec i 0) as [->|NZ]; [cbn; now rewrite andb_false_r|].
        replace (N.testbit 1 i) with false; [now rewrite !andb_false_r|].
        symmetry. apply N.bits_above_log2. cbn. lia. }
      rewrite N.add_nocarry_lxor, N.lxor_lor, <- N.land_lor_distr_r by assumption.
      symmetry. exact L. }
    rewrite E in S. assert (K : (N.land c 1 < 2)%N).
    { change 1%N with (N.ones 1). rewrite N.land_ones. apply N.mod_lt. discriminate. }
    lia.
  - intros [-> | ->]; reflexivity.
Qed.

Lemma uni_name_bmp c : (c <= 0xFFFF)%N -> (uni_name_char c = true <-> unicode_name_char c).
Proof.
  intros B. unfold uni_name_char, unicode_name_char, noncharacter.
  rewrite (bmp_nonchar c B), negb_true_iff, !orb_false_iff, !andb_false_iff, !N.ltb_ge, !N.eqb_neq.
  lia.
Qed.

Lemma check_name_unicode m n : (forall c, In c n -> (c <= 0xFFFF)%N) ->
  (check_data_name m true n = Ret tt <->
   (exists r, n = 95%N :: r) /\ ((m <= 0)%Z \/ (Z.of_nat (length n) <= m)%Z) /\ Forall unicode_name_char n).
Proof.
  intros B. rewrite check_data_name_iff, Forall_forall.
  split; intros (A & L & C); (split; [assumption|split; [assumption|intros c I; apply uni_name_bmp; auto]]).
Qed.

(* ---------- values ---------- *)

Lemma val_char_iff un c : val_char un c = true <-> text_char un c.
Proof. destruct un; [apply uni_val_iff|apply ascii_val_iff]. Qed.

Lemma forallb_text un s : forallb (val_char un) s = true <-> Forall (text_char un) s.
Proof.
  rewrite forallb_forall, Forall_forall. split; intros H c I; apply val_char_iff; auto.
Qed.

Lemma set_item_iff k v b : check_data_name (b_max b) (b_uni b) k = Ret tt ->
  (has_key k b = true -> b_over b = true) ->
  (snd (set_item k v b) = Ret tt <-> acceptable_value (b_uni b) v).
Proof.
  intros C O. split.
  - intros H. destruct (set_item k v b) as [b' r] eqn:E. cbn in H. subst r.
    apply set_item_ok in E. apply add_item_ok in E as (e & _ & R & CV & _). split; eauto.
  - intros A. destruct (set_item_succeeds k v b C A O) as (b' & ->). reflexivity.
Qed.

Lemma acceptable_text un s : acceptable_value un (VStr s) <-> Forall (text_char un) s.
Proof.
  unfold acceptable_value, check_item_value. cbn [check_one]. rewrite <- forallb_text.
  destruct (forallb (val_char un) s).
  - split; [reflexivity|]. intros _. split; [|reflexivity]. exists VNone. reflexivity.
  - split; [|discriminate]. intros [_ H]. discriminate.
Qed.

Lemma reg_list_texts l : reg_list (map VStr l) = Ret (map VStr l, map (fun _ => VNone) l).
Proof. induction l as [|s l IH]; cbn; [reflexivity|]. now rewrite IH. Qed.

Lemma acceptable_column un l : acceptable_value un (VList (map VStr l)) <->
  l <> [] /\ Forall (Forall (text_char un)) l.
Proof.
  unfold acceptable_value. rewrite regularise_VList. unfold check_item_value.
  assert (F : forallb (check_one un) (map VStr l) = true <-> Forall (Forall (text_char un)) l).
  { induction l as [|s l IH]; cbn; [split; auto|].
    rewrite andb_true_iff, IH, forallb_text. split.
    - intros [A B]. constructor; assumption.
    - inversion 1; auto. }
  destruct l as [|s l].
  - split; [intros [(e & H) _]; discriminate|intros [H _]; congruence].
  - change (map VStr (s :: l)) with (VStr s :: map VStr l) at 1. cbv iota.
    rewrite reg_list_texts. rewrite <- F. destruct (forallb _ _).
    + split; [intros _; split; [discriminate|reflexivity]|]. intros _. split; eauto.
    + split; [intros [_ H]; discriminate|intros [_ H]; discriminate].
Qed.
