(** Proofs about folding whole texts and about prefixes. *)
From Coq Require Import String Ascii List NArith ZArith Bool Lia ZifyBool ZifyNat ZifyN.
From Verif Require Import PyBase PyFacts RegexModel RegexFacts FoldModel FoldSpec FoldProofs.
Import ListNotations.

Lemma ends_bslash_true l : ends_bslash l = true <-> exists y, l = y ++ [bslash].
Proof.
  unfold ends_bslash. split.
  - destruct (rev l) as [|c r] eqn:E; [discriminate|]. intros H. apply N.eqb_eq in H. subst c.
    exists (rev r). rewrite <- (rev_involutive l), E. reflexivity.
  - intros [y ->]. rewrite rev_app_distr. reflexivity.
Qed.

Lemma dangling_app a s z : dangling s -> at_line_end z -> dangling (a ++ s ++ z).
Proof.
  intros (x & b & bl & t & -> & Hb & Ht) Hz. exists (a ++ x), b, bl, (t ++ z).
  rewrite <- !app_assoc. cbn [app]. rewrite <- !app_assoc. split; [reflexivity|]. split; [exact Hb|].
  destruct Ht as [->|[t' ->]]; [exact Hz|]. right. now exists (t' ++ z).
Qed.

Lemma not_mark l : ~ dangling l -> ends_bslash l = false -> ~ ends_mark l.
Proof.
  intros Hd He (y & bl & -> & Hb). destruct bl as [|b bl].
  - assert (ends_bslash (y ++ [bslash]) = true) as H by (apply ends_bslash_true; eauto). congruence.
  - apply Hd. exists y, b, bl, []. rewrite app_nil_r. repeat split; auto. now left.
Qed.

Lemma pieces_app n bit out last : pieces n bit out last -> exists a, bit = a ++ last.
Proof.
  induction 1 as [bit|a bit out last H1 H2 [x ->]].
  - now exists [].
  - exists (a ++ x). now rewrite app_assoc.
Qed.
Lemma pieces_unfold n bit out last t : pieces n bit out last -> ~ In nl bit ->
  unfold_text (last ++ t) = last ++ unfold_text t ->
  unfold_text (out ++ last ++ t) = bit ++ unfold_text t.
Proof.
  induction 1 as [bit|a bit out last H1 H2 IH]; intros Hn Ht; cbn [app]; [exact Ht|].
  rewrite <- !app_assoc. change ((bslash :: nl :: out) ++ last ++ t) with ([bslash; nl] ++ (out ++ last ++ t)).
  rewrite unfold_chunk by (intros H; apply Hn; apply in_or_app; now left).
  rewrite IH; auto. intros H. apply Hn. apply in_or_app. now right.
Qed.

(** One folded line, without the newline that ends it. *)
Definition line_image (n m : nat) (l o : str) : Prop :=
  exists out last, pieces n l out last /\ (length last <= m)%nat /\
    o = out ++ last ++ (if ends_bslash last then [bslash; nl] else []).

Lemma fold_line_image minw maxw fuel l : (0 < minw < maxw)%Z -> (length l <= fuel)%nat ->
  exists o, fold_line fuel minw maxw l = Ret (o ++ [nl]) /\
            line_image (Z.to_nat (minw + maxw - 2)) (Z.to_nat maxw) l o.
Proof.
  intros Hw Hf. unfold fold_line. destruct (Z.of_nat (length l) <? maxw)%Z eqn:E.
  - eexists. split; [now rewrite app_assoc|].
    exists [], l. split; [constructor|]. split; [lia|reflexivity].
  - assert (l <> []) as Hne by (intros ->; cbn in E; lia).
    destruct (fold_loop_pieces minw maxw fuel Hw l Hne Hf) as (out & last & E1 & H1 & H2 & H3).
    rewrite E1. cbn [obind fst snd]. destruct last as [|c last]; [contradiction|].
    exists (out ++ (c :: last) ++ (if ends_bslash (c :: last) then [bslash; nl] else [])).
    split; [now rewrite <- !app_assoc|].
    exists out, (c :: last). split; [exact H3|]. split; [lia|reflexivity].
Qed.

Lemma line_image_unfold n m l o t : line_image n m l o -> ~ In nl l -> ~ dangling l -> at_line_end t ->
  unfold_text (o ++ t) = l ++ unfold_text t.
Proof.
  intros (out & last & Hp & _ & ->) Hn Hd Ht. destruct (pieces_app _ _ _ _ Hp) as [a Ea].
  assert (~ In nl last) as Hl by (intros H; apply Hn; rewrite Ea; apply in_or_app; now right).
  destruct (ends_bslash last) eqn:E.
  - rewrite <- !app_assoc.
    rewrite (pieces_unfold n l out last ([bslash; nl] ++ t) Hp Hn).
    + f_equal.
    + now rewrite unfold_chunk by exact Hl.
  - rewrite app_nil_r, <- app_assoc. apply (pieces_unfold n l); auto.
    apply unfold_keep; auto. apply not_mark; auto.
    intros H. apply Hd. rewrite Ea. rewrite <- (app_nil_r last). apply dangling_app; auto. now left.
Qed.

(** All lines, joined without the final newline. *)
Lemma fold_lines_image minw maxw fuel ls : (0 < minw < maxw)%Z ->
  Forall (fun l => (length l <= fuel)%nat) ls ->
  exists os, fold_lines fuel minw maxw ls = Ret (concat (map (fun o => o ++ [nl]) os)) /\
             Forall2 (line_image (Z.to_nat (minw + maxw - 2)) (Z.to_nat maxw)) ls os.
Proof.
  intros Hw H. induction H as [|l ls Hl Hls (os & E & H2)]; cbn [fold_lines].
  - exists []. split; [reflexivity|constructor].
  - destruct (fold_line_image minw maxw fuel l Hw Hl) as (o & E1 & H1).
    rewrite E1, E. cbn [obind]. exists (o :: os). split; [reflexivity|now constructor].
Qed.

Fixpoint join_raw (ls : list str) : str :=
  match ls with [] => [] | [l] => l | l :: ls' => l ++ nl :: join_raw ls' end.
Lemma join_raw_removelast os h : os <> [] ->
  removelast (h ++ concat (map (fun o => o ++ [nl]) os)) = h ++ join_raw os.
Proof.
  intros Hne. assert (concat (map (fun o => o ++ [nl]) os) = join_raw os ++ [nl]) as ->.
  { induction os as [|o os IH]; [contradiction|]. destruct os as [|o2 os].
    - cbn. now rewrite app_nil_r.
    - cbn [map concat]. cbn [map concat] in IH. rewrite IH by discriminate.
      cbn [join_raw]. rewrite <- !app_assoc. reflexivity. }
  rewrite app_assoc. apply removelast_last.
Qed.

Lemma lines_unfold n m ls os : Forall2 (line_image n m) ls os ->
  Forall (fun l => ~ In nl l) ls -> Forall (fun l => ~ dangling l) ls ->
  unfold_text (join_raw os) = join_nl ls.
Proof.
  induction 1 as [|l o ls os H1 H2 IH]; intros Hn Hd; [reflexivity|].
  apply Forall_cons_iff in Hn. destruct Hn as [Hn1 Hn]. apply Forall_cons_iff in Hd. destruct Hd as [Hd1 Hd].
  destruct H2 as [|l2 o2 ls os H2 H3].
  - cbn [join_raw join_nl]. rewrite <- (app_nil_r o).
    rewrite (line_image_unfold n m l o [] H1 Hn1 Hd1); [cbn; now rewrite app_nil_r|now left].
  - change (join_raw (o :: o2 :: os)) with (o ++ nl :: join_raw (o2 :: os)).
    change (join_nl (l :: l2 :: ls)) with (l ++ nl :: join_nl (l2 :: ls)).
    rewrite (line_image_unfold n m l o _ H1 Hn1 Hd1) by (right; eauto).
    rewrite unfold_nl, IH; auto.
Qed.

Lemma line_not_dangling s l : ~ dangling s -> In l (split_nl s) -> ~ dangling l.
Proof.
  intros Hs Hl Hd. apply split_nl_line_of in Hl. destruct Hl as (_ & a & z & -> & _ & Hz).
  apply Hs. now apply dangling_app.
Qed.
Lemma line_length s l : In l (split_nl s) -> (length l <= length s)%nat.
Proof.
  intros H. apply split_nl_line_of in H. destruct H as (_ & a & z & -> & _).
  rewrite !app_length. lia.
Qed.

Definition needs_fold (maxw : Z) (s : str) : bool :=
  negb ((Z.of_nat (max_length (split_nl s)) <? maxw)%Z
     && match re_match re_fold_check s with None => true | Some _ => false end).

Lemma apply_fold_image minw maxw fuel s : (0 < minw < maxw)%Z -> (length s <= fuel)%nat ->
  needs_fold maxw s = true ->
  exists os, apply_line_folding fuel minw maxw s = Ret ([bslash; nl] ++ join_raw os) /\ os <> [] /\
    Forall2 (line_image (Z.to_nat (minw + maxw - 2)) (Z.to_nat maxw)) (split_nl s) os.
Proof.
  intros Hw Hf Hneed. unfold apply_line_folding. unfold needs_fold in Hneed.
  apply negb_true_iff in Hneed. rewrite Hneed.
  destruct (fold_lines_image minw maxw fuel (split_nl s) Hw) as (os & E & H).
  { apply Forall_forall. intros l Hl. apply line_length in Hl. lia. }
  rewrite E. cbn [obind]. exists os.
  assert (os <> []) as Hne.
  { intros ->. inversion H as [Hs|]. symmetry in Hs. now apply (split_nl_cons s). }
  rewrite join_raw_removelast by exact Hne. auto.
Qed.
Lemma apply_fold_same minw maxw fuel s : needs_fold maxw s = false ->
  apply_line_folding fuel minw maxw s = Ret s.
Proof. unfold needs_fold, apply_line_folding. intros H. apply negb_false_iff in H. now rewrite H. Qed.

Lemma header_match t : re_match re_fold_header (bslash :: nl :: t) = Some ([bslash; nl], t).
Proof. reflexivity. Qed.

Lemma fold_roundtrip minw maxw fuel s : (0 < minw < maxw)%Z -> (length s <= fuel)%nat ->
  needs_fold maxw s = true -> ~ dangling s ->
  exists o, apply_line_folding fuel minw maxw s = Ret o /\ remove_line_folding o = s.
Proof.
  intros Hw Hf Hneed Hd. destruct (apply_fold_image minw maxw fuel s Hw Hf Hneed) as (os & E & Hne & H).
  eexists. split; [exact E|]. unfold remove_line_folding.
  change ([bslash; nl] ++ join_raw os) with (bslash :: nl :: join_raw os). rewrite header_match.
  change (bslash :: nl :: join_raw os) with ([] ++ [bslash; nl] ++ join_raw os).
  fold (unfold_text ([] ++ [bslash; nl] ++ join_raw os)).
  rewrite unfold_chunk by (intros []). cbn [app].
  rewrite (lines_unfold _ _ _ _ H).
  - apply join_split.
  - apply Forall_forall. intros l Hl. now apply (split_nl_clean s).
  - apply Forall_forall. intros l Hl. now apply (line_not_dangling s).
Qed.

Lemma long_line_needs maxw s : long_line (Z.to_nat maxw) s -> (0 < maxw)%Z -> needs_fold maxw s = true.
Proof.
  intros (l & Hl & Hlen) Hp. apply split_nl_line_of in Hl. unfold needs_fold.
  destruct (Z.of_nat (max_length (split_nl s)) <? maxw)%Z eqn:E; [|reflexivity].
  assert (max_length (split_nl s) < Z.to_nat maxw)%nat as H by lia.
  apply max_length_spec in H. destruct H as [_ H]. specialize (H l Hl). lia.
Qed.

Lemma fold_lossless minw maxw fuel s : (0 < minw < maxw)%Z -> (length s <= fuel)%nat ->
  long_line (Z.to_nat maxw) s -> ~ dangling s ->
  exists o, apply_line_folding fuel minw maxw s = Ret o /\ remove_line_folding o = s.
Proof. intros Hw Hf Hl Hd. apply fold_roundtrip; auto. apply long_line_needs; auto. lia. Qed.

(** Short texts. *)
Lemma fold_check_head s : re_match re_fold_check s <> None -> exists t, s = 91%N :: t.
Proof.
  unfold re_match, re_fold_check, is. cbn [rseq]. rewrite rmatch_seq_chr.
  destruct s as [|c s]; [intros H; now contradiction H|].
  destruct (91 =? c)%N eqn:E; [|intros H; now contradiction H].
  apply N.eqb_eq in E. subst c. eauto.
Qed.
Lemma fold_short minw maxw fuel s : (0 < maxw)%Z -> ~ long_line (Z.to_nat maxw) s ->
  (forall t, s <> 91%N :: 32%N :: 11%N :: t) ->
  apply_line_folding fuel minw maxw s = Ret s.
Proof.
  intros Hp Hl Hs. apply apply_fold_same. unfold needs_fold. apply negb_false_iff, andb_true_iff. split.
  - assert (max_length (split_nl s) < Z.to_nat maxw)%nat as H; [|lia].
    apply max_length_spec. split; [lia|]. intros l Hi.
    destruct (Nat.lt_ge_cases (length l) (Z.to_nat maxw)) as [H|H]; [exact H|].
    exfalso. apply Hl. exists l. split; [now apply split_nl_line_of|exact H].
  - destruct (re_match re_fold_check s) as [p|] eqn:E; [|reflexivity]. exfalso.
    unfold re_match, re_fold_check, is in E. cbn [rseq] in E.
    rewrite rmatch_seq_chr in E. destruct s as [|c s]; [discriminate|].
    destruct (91 =? c)%N eqn:E1; [|discriminate]. rewrite rmatch_seq_chr in E.
    destruct s as [|c2 s]; [discriminate|].
    destruct (32 =? c2)%N eqn:E2; [|discriminate]. rewrite rmatch_seq_chr in E.
    destruct s as [|c3 s]; [discriminate|].
    destruct (11 =? c3)%N eqn:E3; [|discriminate].
    apply (Hs s). repeat f_equal; lia.
Qed.

Lemma header_spec s : re_match re_fold_header s <> None <-> exists bl rest, fold_header bl rest s.
Proof.
  unfold re_match, re_fold_header, is. cbn [rseq]. rewrite rmatch_seq_chr.
  unfold blanks, one_of. change (fun c0 : N => existsb (N.eqb c0) blank_chars) with isb.
  split.
  - destruct s as [|c s]; [intros H; now contradiction H|].
    destruct (bslash =? c)%N eqn:E; [|intros H; now contradiction H]. apply N.eqb_eq in E. subst c.
    rewrite seq_star_chr.
    + intros H. pose proof (span_app isb s) as Hs. pose proof (span_all isb s) as Ha.
      destruct (snd (span isb s)) as [|d t] eqn:E2; [now contradiction H|]. cbn [rmatch] in H.
      destruct (nl =? d)%N eqn:E3; [|now contradiction H]. apply N.eqb_eq in E3. subst d.
      exists (fst (span isb s)), t. split; [now rewrite <- Hs at 1|].
      eapply Forall_impl; [|exact Ha]. intros a. cbv beta. apply isb_blank.
    + intros d t Hd. cbn [rmatch]. destruct (nl =? d)%N eqn:E3; [|reflexivity].
      apply N.eqb_eq in E3. subst d. discriminate.
  - intros (bl & rest & -> & Hb). change BS with bslash. rewrite N.eqb_refl.
    rewrite seq_star_chr.
    + change NL with nl. rewrite (span_prefix isb bl (nl :: rest)).
      * cbn. discriminate.
      * eapply Forall_impl; [|exact Hb]. intros a. cbv beta. apply isb_blank.
      * reflexivity.
    + intros d t Hd. cbn [rmatch]. destruct (nl =? d)%N eqn:E3; [|reflexivity].
      apply N.eqb_eq in E3. subst d. discriminate.
Qed.
Lemma header_match_full bl rest : Forall blank bl ->
  re_match re_fold_header (bslash :: bl ++ nl :: rest) = Some (bslash :: bl ++ [nl], rest).
Proof.
  intros Hb. unfold re_match, re_fold_header, is. cbn [rseq]. rewrite rmatch_seq_chr.
  unfold blanks, one_of. change (fun c0 : N => existsb (N.eqb c0) blank_chars) with isb.
  rewrite N.eqb_refl. rewrite seq_star_chr.
  - rewrite (span_prefix isb bl (nl :: rest)).
    + reflexivity.
    + eapply Forall_impl; [|exact Hb]. intros a. cbv beta. apply isb_blank.
    + reflexivity.
  - intros d t Hd. cbn [rmatch]. destruct (nl =? d)%N eqn:E3; [|reflexivity].
    apply N.eqb_eq in E3. subst d. discriminate.
Qed.

Lemma unfold_plain s : (forall bl rest, ~ fold_header bl rest s) -> remove_line_folding s = s.
Proof.
  intros H. unfold remove_line_folding. destruct (re_match re_fold_header s) eqn:E; [|reflexivity].
  exfalso. assert (re_match re_fold_header s <> None) as H1 by congruence.
  apply header_spec in H1. destruct H1 as (bl & rest & H1). now apply (H bl rest).
Qed.

(** Every text: folding then unfolding is the identity unless the text carries a
    folding header or a dangling line of its own. *)
Lemma fold_always minw maxw fuel s : (0 < minw < maxw)%Z -> (length s <= fuel)%nat ->
  ~ dangling s -> (forall bl rest, ~ fold_header bl rest s) ->
  exists o, apply_line_folding fuel minw maxw s = Ret o /\ remove_line_folding o = s.
Proof.
  intros Hw Hf Hd Hh. destruct (needs_fold maxw s) eqn:E.
  - now apply fold_roundtrip.
  - exists s. split; [now apply apply_fold_same|now apply unfold_plain].
Qed.

(** Line lengths. *)
Lemma pieces_lines n bit out last t : pieces n bit out last -> ~ In nl bit ->
  forall M, (n + 1 <= M)%nat -> Forall (fun l => (length l <= M)%nat) (split_nl (last ++ t)) ->
  Forall (fun l => (length l <= M)%nat) (split_nl (out ++ last ++ t)).
Proof.
  induction 1 as [bit|a bit out last H1 H2 IH]; intros Hn M HM Ht; cbn [app]; [exact Ht|].
  assert ((a ++ bslash :: nl :: out) ++ last ++ t = (a ++ [bslash]) ++ nl :: (out ++ last ++ t)) as ->
    by (rewrite <- !app_assoc; reflexivity).
  rewrite split_nl_line.
  - constructor; [rewrite app_length; cbn; lia|].
    apply IH; auto. intros H. apply Hn. apply in_or_app. now right.
  - rewrite in_app_iff. intros [H|[H|[]]]; [apply Hn; apply in_or_app; now left|discriminate].
Qed.
Lemma lines_length n m M ls os : (n + 1 <= M)%nat -> (m + 1 <= M)%nat ->
  Forall2 (line_image n m) ls os -> Forall (fun l => ~ In nl l) ls ->
  Forall (fun l => (length l <= M)%nat) (split_nl (join_raw os)).
Proof.
  intros HM HM2. induction 1 as [|l o ls os H1 H2 IH]; intros Hn.
  - cbn. constructor; [cbn; lia|constructor].
  - apply Forall_cons_iff in Hn. destruct Hn as [Hn1 Hn]. specialize (IH Hn).
    assert (forall t, at_line_end t -> Forall (fun l => (length l <= M)%nat) (split_nl t) ->
            Forall (fun l => (length l <= M)%nat) (split_nl (o ++ t))) as Hstep.
    { intros t Ht Hlt. destruct H1 as (out & last & Hp & Hlen & ->).
      destruct (pieces_app _ _ _ _ Hp) as [a Ea].
      assert (~ In nl last) as Hl by (intros H; apply Hn1; rewrite Ea; apply in_or_app; now right).
      rewrite <- !app_assoc. apply (pieces_lines n l); auto.
      destruct (ends_bslash last).
      - replace (last ++ [bslash; nl] ++ t) with ((last ++ [bslash]) ++ nl :: t) by (rewrite <- app_assoc; reflexivity).
        rewrite split_nl_line.
        + constructor; [rewrite app_length; cbn; lia|exact Hlt].
        + rewrite in_app_iff. intros [H|[H|[]]]; [contradiction|discriminate].
      - cbn [app]. destruct Ht as [->|[t' ->]].
        + rewrite app_nil_r, split_nl_last by exact Hl. constructor; [lia|constructor].
        + change NL with nl. rewrite split_nl_line by exact Hl.
          constructor; [lia|]. change NL with nl in Hlt. cbn [split_nl] in Hlt.
          change (nl =? nl)%N with true in Hlt. cbv iota in Hlt.
          now apply Forall_cons_iff in Hlt. }
    destruct os as [|o2 os].
    + cbn [join_raw]. rewrite <- (app_nil_r o). apply Hstep; [now left|].
      cbn. constructor; [cbn; lia|constructor].
    + change (join_raw (o :: o2 :: os)) with (o ++ nl :: join_raw (o2 :: os)).
      apply Hstep; [right; eauto|]. cbn [split_nl]. change (nl =? nl)%N with true. cbv iota.
      constructor; [cbn; lia|exact IH].
Qed.
Lemma fold_total_bound minw maxw fuel s : (0 < minw < maxw)%Z -> (length s <= fuel)%nat ->
  exists o, apply_line_folding fuel minw maxw s = Ret o /\
            no_longer_than (Z.to_nat (Z.max (minw + maxw - 1) (maxw + 1))) o.
Proof.
  intros Hw Hf. destruct (needs_fold maxw s) eqn:E.
  - destruct (apply_fold_image minw maxw fuel s Hw Hf E) as (os & E1 & Hne & H).
    eexists. split; [exact E1|]. apply lines_bound.
    change ([bslash; nl] ++ join_raw os) with ([bslash] ++ nl :: join_raw os).
    rewrite split_nl_line by (intros [H1|[]]; discriminate).
    constructor; [cbn; lia|].
    apply (lines_length (Z.to_nat (minw + maxw - 2)) (Z.to_nat maxw) _ (split_nl s)); auto; try lia.
    apply Forall_forall. intros l Hl. now apply (split_nl_clean s).
  - exists s. split; [now apply apply_fold_same|]. apply lines_bound.
    unfold needs_fold in E. apply negb_false_iff, andb_true_iff in E. destruct E as [E _].
    apply Forall_forall. intros l Hl.
    assert (max_length (split_nl s) < Z.to_nat maxw)%nat as H by lia.
    apply max_length_spec in H. destruct H as [_ H]. specialize (H l Hl). lia.
Qed.

(** Prefixes. *)
Lemma replace_nl_line p l t : ~ In nl l -> py_replace [nl] (nl :: p) (l ++ t) = l ++ py_replace [nl] (nl :: p) t.
Proof.
  unfold py_replace. induction l as [|c l IH]; intros Hn; [reflexivity|]. cbn [app replace_go starts_with].
  destruct (nl =? c)%N eqn:E; [exfalso; apply Hn; left; lia|]. cbn [andb].
  f_equal. apply IH. intros H. apply Hn. now right.
Qed.
Lemma replace_nl_nl p t : py_replace [nl] (nl :: p) (nl :: t) = nl :: p ++ py_replace [nl] (nl :: p) t.
Proof. reflexivity. Qed.
Lemma replace_skip pat rep k s : replace_go pat rep k s = replace_go pat rep 0 (skipn k s).
Proof.
  revert s. induction k as [|k IH]; intros s; [reflexivity|].
  destruct s as [|c s]; [reflexivity|]. cbn [replace_go skipn]. apply IH.
Qed.
Lemma starts_with_app p t : starts_with p (p ++ t) = true.
Proof. induction p as [|c p IH]; [reflexivity|]. cbn. now rewrite N.eqb_refl, IH. Qed.
Lemma unprefix_nl p t : py_replace (nl :: p) [nl] (nl :: p ++ t) = nl :: py_replace (nl :: p) [nl] t.
Proof.
  unfold py_replace. cbn [replace_go]. change (nl :: p ++ t) with ((nl :: p) ++ t).
  rewrite starts_with_app. cbn [app]. f_equal.
  rewrite replace_skip. f_equal. cbn [length]. rewrite Nat.sub_succ, Nat.sub_0_r.
  now rewrite skipn_app, skipn_all, Nat.sub_diag.
Qed.
Lemma unprefix_line p l t : ~ In nl l -> py_replace (nl :: p) [nl] (l ++ t) = l ++ py_replace (nl :: p) [nl] t.
Proof.
  unfold py_replace. induction l as [|c l IH]; intros Hn; [reflexivity|]. cbn [app replace_go starts_with].
  destruct (nl =? c)%N eqn:E; [exfalso; apply Hn; left; lia|]. cbn [andb].
  f_equal. apply IH. intros H. apply Hn. now right.
Qed.
Lemma unprefix_prefix p s : py_replace (nl :: p) [nl] (py_replace [nl] (nl :: p) s) = s.
Proof.
  rewrite <- (join_split s). pose proof (split_nl_clean s) as Hc. revert Hc.
  generalize (split_nl s) as ls. clear s.
  induction ls as [|l ls IH]; intros Hc; [reflexivity|].
  assert (~ In nl l) as Hl by (apply Hc; now left).
  destruct ls as [|l2 ls].
  - cbn [join_nl]. rewrite <- (app_nil_r l) at 1. rewrite replace_nl_line by exact Hl.
    rewrite unprefix_line by exact Hl. cbn. now rewrite app_nil_r.
  - change (join_nl (l :: l2 :: ls)) with (l ++ nl :: join_nl (l2 :: ls)).
    rewrite replace_nl_line by exact Hl. rewrite unprefix_line by exact Hl. f_equal.
    rewrite replace_nl_nl, unprefix_nl. f_equal. apply IH. intros x Hx. apply Hc. now right.
Qed.

Definition pfx1 (c : N) : bool := negb (existsb (N.eqb c) [nl; bslash]).
Lemma match_prefix p k t : good_prefix p -> (k = 1 \/ k = 2)%nat ->
  re_match2 re_prefix re_prefix_end (p ++ repeat bslash k ++ nl :: t) = Some (p, repeat bslash k ++ [nl], t).
Proof.
  intros (Hlen & Hn & Hb & Hs) Hk. unfold re_match2.
  destruct p as [|c1 [|c2 p]]; cbn in Hlen; try lia.
  set (T := repeat bslash k ++ nl :: t).
  assert (exists l, rmatch re_prefix ((c1 :: c2 :: p) ++ T) = (c1 :: c2 :: p, T) :: l) as [l E].
  { unfold re_prefix, none_of. rewrite rmatch_seq_chr. cbn [app].
    replace (negb (existsb (N.eqb c1) [semi; nl])) with true.
    2:{ symmetry. apply negb_true_iff. cbn [existsb].
        destruct (c1 =? semi)%N eqn:E1; [exfalso; apply (Hs (c2 :: p)); f_equal; unfold semi, SC in *; lia|].
        destruct (c1 =? nl)%N eqn:E2; [exfalso; apply Hn; left; unfold nl, NL in *; lia|]. reflexivity. }
    unfold rplus. rewrite rmatch_seq_chr. change (fun c : N => negb (existsb (N.eqb c) [nl; bslash])) with pfx1.
    assert (Forall (fun c => pfx1 c = true) (c2 :: p)) as Ha.
    { apply Forall_forall. intros c Hc. unfold pfx1. apply negb_true_iff. cbn [existsb].
      destruct (c =? nl)%N eqn:E1.
      { apply N.eqb_eq in E1. subst c. exfalso. apply Hn. now right. }
      destruct (c =? bslash)%N eqn:E2; [|reflexivity].
      apply N.eqb_eq in E2. subst c. exfalso. apply Hb. now right. }
    assert (span pfx1 (p ++ T) = (p, T)) as Hsp.
    { apply span_prefix; [now apply Forall_cons_iff in Ha|]. unfold T. destruct Hk as [->| ->]; reflexivity. }
    apply Forall_cons_iff in Ha. destruct Ha as [Ha _].
    cbv iota. unfold pfx1 in Ha at 1. rewrite Ha, rmatch_star_chr. pose proof (chr_star_hd pfx1 (p ++ T)) as Hh.
    destruct (chr_star pfx1 (p ++ T)) as [|x l]; [discriminate|]. cbn in Hh. injection Hh as ->.
    rewrite Hsp. cbn. eauto. }
  rewrite E. cbn [flat_map fst snd]. subst T.
  assert (exists l', rmatch re_prefix_end (repeat bslash k ++ nl :: t) = (repeat bslash k ++ [nl], t) :: l') as [l' ->].
  { destruct Hk as [-> | ->]; cbn; eauto. }
  reflexivity.
Qed.

Lemma good_prefix_apply p s : good_prefix p ->
  apply_line_prefix s p =
  match re_match re_fold_header s with
  | Some (_, rest) => Ret (p ++ [bslash; bslash; nl] ++ p ++ py_replace [nl] (nl :: p) rest)
  | None => Ret (p ++ [bslash; nl] ++ p ++ py_replace [nl] (nl :: p) s)
  end.
Proof.
  intros (Hlen & Hn & Hb & Hs). unfold apply_line_prefix. destruct p as [|c p]; [cbn in Hlen; lia|].
  assert ((c =? semi)%N = false) as -> by (destruct (c =? semi)%N eqn:E; [exfalso; apply (Hs p); f_equal; unfold semi, SC in *; lia|reflexivity]).
  assert (cmem bslash (c :: p) = false) as ->.
  { destruct (cmem bslash (c :: p)) eqn:E; [|reflexivity]. exfalso. apply Hb.
    unfold cmem in E. apply existsb_exists in E. destruct E as (x & Hx & Ex). apply N.eqb_eq in Ex. now subst x. }
  reflexivity.
Qed.

Lemma prefix_plain p s : good_prefix p -> (forall bl rest, ~ fold_header bl rest s) ->
  exists o, apply_line_prefix s p = Ret o /\ remove_line_prefix o = s.
Proof.
  intros Hp Hh. rewrite good_prefix_apply by exact Hp.
  destruct (re_match re_fold_header s) as [[m rest]|] eqn:E.
  { exfalso. assert (re_match re_fold_header s <> None) as H1 by congruence.
    apply header_spec in H1. destruct H1 as (bl & r & H1). now apply (Hh bl r). }
  eexists. split; [reflexivity|]. unfold remove_line_prefix.
  change ([bslash; nl] ++ p ++ py_replace [nl] (nl :: p) s)
    with (repeat bslash 1 ++ nl :: (p ++ py_replace [nl] (nl :: p) s)).
  rewrite (match_prefix p 1 _ Hp) by now left.
  cbn [repeat app starts_with]. change (bslash =? nl)%N with false. rewrite andb_false_r. cbn [andb].
  rewrite unprefix_nl, unprefix_prefix. reflexivity.
Qed.
Lemma prefix_folded p bl rest : good_prefix p -> Forall blank bl ->
  exists o, apply_line_prefix (bslash :: bl ++ nl :: rest) p = Ret o /\ remove_line_prefix o = bslash :: nl :: rest.
Proof.
  intros Hp Hb. rewrite good_prefix_apply by exact Hp. rewrite header_match_full by exact Hb.
  eexists. split; [reflexivity|]. unfold remove_line_prefix.
  change ([bslash; bslash; nl] ++ p ++ py_replace [nl] (nl :: p) rest)
    with (repeat bslash 2 ++ nl :: (p ++ py_replace [nl] (nl :: p) rest)).
  rewrite (match_prefix p 2 _ Hp) by now right.
  cbn [repeat app starts_with]. rewrite N.eqb_refl. cbn [andb].
  rewrite unprefix_nl, unprefix_prefix. reflexivity.
Qed.

(** No premature terminator. *)
Definition nl_guarded (p s : str) : Prop := forall a z, s = a ++ nl :: z -> exists z', z = p ++ z'.
Lemma replace_guarded p s : ~ In nl p -> nl_guarded p (py_replace [nl] (nl :: p) s).
Proof.
  intros Hp. rewrite <- (join_split s). pose proof (split_nl_clean s) as Hc. revert Hc.
  generalize (split_nl s) as ls. clear s.
  assert (forall l t, ~ In nl l -> nl_guarded p t -> nl_guarded p (l ++ t)) as Hl.
  { intros l t Hn Ht. induction l as [|c l IH]; [exact Ht|]. intros a z E. destruct a as [|d a]; cbn in E.
    - injection E as -> _. exfalso. apply Hn. now left.
    - injection E as _ E. apply (IH (fun H => Hn (or_intror H)) a z E). }
  induction ls as [|l ls IH]; intros Hc; [intros [|? ?] z E; discriminate|].
  destruct ls as [|l2 ls].
  - cbn [join_nl]. rewrite <- (app_nil_r l) at 1. rewrite replace_nl_line by (apply Hc; now left).
    apply Hl; [apply Hc; now left|]. intros [|? ?] z E; discriminate.
  - change (join_nl (l :: l2 :: ls)) with (l ++ nl :: join_nl (l2 :: ls)).
    rewrite replace_nl_line by (apply Hc; now left). apply Hl; [apply Hc; now left|].
    rewrite replace_nl_nl. intros a z E. destruct a as [|d a]; cbn in E.
    + injection E as E. eauto.
    + injection E as _ E. revert a z E. fold (nl_guarded p (p ++ py_replace [nl] (nl :: p) (join_nl (l2 :: ls)))).
      apply Hl; [exact Hp|]. apply IH. intros x Hx. apply Hc. now right.
Qed.
Lemma guarded_app p l t : ~ In nl l -> nl_guarded p t -> nl_guarded p (l ++ t).
Proof.
  intros Hn Ht. induction l as [|c l IH]; [exact Ht|]. intros a z E. destruct a as [|d a]; cbn in E.
  - injection E as -> _. exfalso. apply Hn. now left.
  - injection E as _ E. apply (IH (fun H => Hn (or_intror H)) a z E).
Qed.
Lemma prefix_no_terminator p s o : good_prefix p -> apply_line_prefix s p = Ret o -> no_terminator o.
Proof.
  intros Hp E. destruct Hp as (Hlen & Hn & Hb & Hs) eqn:Hpe. clear Hpe.
  assert (good_prefix p) as Hp' by (repeat split; auto).
  assert (nl_guarded p o) as Hg.
  { rewrite good_prefix_apply in E by exact Hp'.
    assert (forall t, nl_guarded p (p ++ py_replace [nl] (nl :: p) t)) as Hg.
    { intros t. apply guarded_app; [exact Hn|]. now apply replace_guarded. }
    assert (forall t k, nl_guarded p (p ++ repeat bslash k ++ nl :: p ++ py_replace [nl] (nl :: p) t)) as Hg2.
    { intros t k. apply guarded_app; [exact Hn|]. apply guarded_app.
      - intros H. apply repeat_spec in H. discriminate.
      - intros a z E2. destruct a as [|d a]; cbn in E2; [injection E2 as E2; eauto|].
        injection E2 as _ E2. now apply (Hg t a z). }
    destruct (re_match re_fold_header s) as [[m rest]|]; injection E as <-.
    - apply (Hg2 rest 2%nat).
    - apply (Hg2 s 1%nat). }
  intros a z ->. destruct (Hg a (SC :: z) eq_refl) as [z' E2].
  destruct p as [|c p]; [cbn in Hlen; lia|]. cbn in E2. injection E2 as E2 _. apply (Hs p). now rewrite E2.
Qed.

(** The search for an unused prefix. *)
Lemma starts_with_spec p s : starts_with p s = true <-> exists z, s = p ++ z.
Proof.
  revert s. induction p as [|c p IH]; intros s; cbn.
  - split; [eauto|auto].
  - destruct s as [|d s].
    + split; [discriminate|intros [z E]; discriminate].
    + rewrite andb_true_iff, IH. split.
      * intros [E [z ->]]. exists z. f_equal. lia.
      * intros [z E]. injection E as -> ->. split; [apply N.eqb_refl|eauto].
Qed.
Lemma substr_spec p s : substr p s = true <-> occurs p s.
Proof.
  induction s as [|c s IH]; cbn [substr]; rewrite orb_true_iff, starts_with_spec.
  - split.
    + intros [[z E]|H]; [exists [], z; exact E|discriminate].
    + intros (a & z & E). destruct a; [|discriminate]. left. exists z. exact E.
  - rewrite IH. split.
    + intros [[z E]|(a & z & ->)]; [exists [], z; exact E|now exists (c :: a), z].
    + intros (a & z & E). destruct a as [|d a]; cbn in E; [left; now exists z|].
      injection E as -> ->. right. now exists a, z.
Qed.
Lemma substr_length p s : substr p s = true -> (length p <= length s)%nat.
Proof. rewrite substr_spec. intros (a & z & ->). rewrite !app_length. lia. Qed.

Lemma find_prefix_total fuel p s : (length s < length p + fuel)%nat ->
  exists k, find_prefix fuel p s = Ret (p ++ repeat 58%N k) /\ ~ occurs (p ++ repeat 58%N k) s
            /\ (forall j, (j < k)%nat -> occurs (p ++ repeat 58%N j) s).
Proof.
  revert p. induction fuel as [|f IH]; intros p H.
  - cbn [find_prefix]. destruct (substr p s) eqn:E; [apply substr_length in E; lia|].
    exists 0%nat. cbn [repeat]. rewrite app_nil_r. split; [reflexivity|]. split; [|intros j Hj; lia].
    rewrite <- substr_spec. congruence.
  - cbn [find_prefix]. destruct (substr p s) eqn:E.
    + destruct (IH (p ++ [58%N])) as (k & E1 & H1 & H2); [rewrite app_length; cbn; lia|].
      exists (Datatypes.S k). cbn [repeat].
      assert (forall j, (p ++ [58%N]) ++ repeat 58%N j = p ++ 58%N :: repeat 58%N j) as Ej
        by (intros j; now rewrite <- app_assoc).
      rewrite Ej in *. split; [exact E1|]. split; [exact H1|].
      intros [|j] Hj.
      * cbn [repeat]. rewrite app_nil_r. now apply substr_spec.
      * cbn [repeat]. rewrite <- Ej. apply H2. lia.
    + exists 0%nat. cbn [repeat]. rewrite app_nil_r. split; [reflexivity|]. split; [|intros j Hj; lia].
      rewrite <- substr_spec. congruence.
Qed.
Lemma chosen_prefix_good k : good_prefix ((u "CIF:" ++ repeat 58%N k) ++ u "> ").
Proof.
  assert (forall c, In c ((u "CIF:" ++ repeat 58%N k) ++ u "> ") -> c <> NL /\ c <> BS) as H.
  { intros c. rewrite !in_app_iff. intros [[H|H]|H].
    - cbn in H. unfold NL, BS. lia.
    - apply repeat_spec in H. subst c. unfold NL, BS. lia.
    - cbn in H. unfold NL, BS. lia. }
  split; [rewrite !app_length; cbn; lia|]. split; [intros Hi; now apply H in Hi|].
  split; [intros Hi; now apply H in Hi|]. intros q E. discriminate.
Qed.
