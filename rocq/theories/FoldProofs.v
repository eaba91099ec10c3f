(** Proofs about the folding protocol. *)
From Coq Require Import String Ascii List NArith ZArith Bool Lia ZifyBool ZifyNat ZifyN.
From Verif Require Import PyBase PyFacts RegexModel RegexFacts FoldModel FoldSpec.
Import ListNotations.

Definition isb (c : N) : bool := existsb (N.eqb c) blank_chars.
Lemma isb_blank c : isb c = true <-> blank c.
Proof.
  unfold isb, blank_chars, blank. cbn [existsb]. lia.
Qed.
Lemma isb_nl : isb nl = false. Proof. reflexivity. Qed.
Lemma isb_bs : isb bslash = false. Proof. reflexivity. Qed.

(** The mark that ends a folded line, computed directly. *)
Definition mark (s : str) : option (str * str) :=
  match s with
  | c :: s' =>
      if (c =? bslash)%N then
        match snd (span isb s') with
        | [] => Some (c :: fst (span isb s'), [])
        | d :: t => if (d =? nl)%N then Some (c :: fst (span isb s') ++ [d], t) else None
        end
      else None
  | [] => None
  end.

Lemma re_match_mark s : re_match re_fold_mark s = mark s.
Proof.
  unfold re_match, re_fold_mark, is. cbn [rseq]. rewrite rmatch_seq_chr.
  destruct s as [|c s]; [reflexivity|]. cbn [mark]. rewrite N.eqb_sym.
  destruct (c =? bslash)%N eqn:E; [|reflexivity].
  unfold blanks, one_of. change (fun c0 : N => existsb (N.eqb c0) blank_chars) with isb.
  rewrite seq_star_chr.
  - destruct (snd (span isb s)) as [|d t] eqn:E2; rewrite rmatch_seq_eol.
    + cbn [rmatch ropt is app map hd_error]. unfold pre. cbn [fst snd]. rewrite ?app_nil_r. reflexivity.
    + change 10%N with nl. destruct (d =? nl)%N eqn:E3; [|reflexivity].
      unfold ropt. cbn [rmatch is]. rewrite N.eqb_sym, E3. cbn. reflexivity.
  - intros d t Hd. rewrite rmatch_seq_eol. destruct (d =? 10)%N eqn:E3; [|reflexivity].
    apply N.eqb_eq in E3. subst d. discriminate.
Qed.

Definition unfold_text (s : str) : str := re_remove re_fold_mark 0 s.

Lemma unfold_nonbs c s : (c =? bslash)%N = false -> unfold_text (c :: s) = c :: unfold_text s.
Proof. intros H. apply re_remove_miss. rewrite re_match_mark. cbn [mark]. now rewrite H. Qed.
Lemma unfold_miss s c : mark (c :: s) = None -> unfold_text (c :: s) = c :: unfold_text s.
Proof. intros H. apply re_remove_miss. now rewrite re_match_mark. Qed.

Lemma span_line x t : ~ In nl x -> (forall bl, Forall (fun c => isb c = true) bl -> x <> bl) ->
  exists bl d y, x = bl ++ d :: y /\ span isb (x ++ t) = (bl, d :: y ++ t) /\ isb d = false /\ d <> nl.
Proof.
  induction x as [|c x IH]; intros Hn Hb.
  - exfalso. apply (Hb []); [constructor|reflexivity].
  - cbn [app span]. destruct (isb c) eqn:E.
    + destruct IH as (bl & d & y & Ex & Es & Hd & Hdn).
      * intros H. apply Hn. now right.
      * intros bl Hbl Hx. apply (Hb (c :: bl)); [now constructor|now rewrite Hx].
      * exists (c :: bl), d, y. rewrite Ex in *. rewrite Es. repeat split; auto.
    + exists [], c, x. repeat split; auto. intros Hc. apply Hn. now left.
Qed.

(** A piece of a line followed by an inserted mark unfolds to the piece. *)
Lemma unfold_chunk x t : ~ In nl x -> unfold_text (x ++ [bslash; nl] ++ t) = x ++ unfold_text t.
Proof.
  induction x as [|c x IH]; intros Hn; cbn [app].
  - unfold unfold_text. rewrite (re_remove_hit _ bslash (nl :: t) [nl] t); [reflexivity|].
    rewrite re_match_mark. reflexivity.
  - rewrite unfold_miss.
    + f_equal. apply IH. intros H. apply Hn. now right.
    + cbn [mark]. destruct (c =? bslash)%N eqn:E; [|reflexivity].
      destruct (span_line (x ++ [bslash]) (nl :: t)) as (bl & d & y & Ex & Es & Hd & Hdn).
      * rewrite in_app_iff. intros [H|[H|[]]]; [apply Hn; now right|discriminate].
      * intros bl Hbl Hx. assert (In bslash bl) as Hi by (rewrite <- Hx; apply in_or_app; right; now left).
        rewrite Forall_forall in Hbl. specialize (Hbl _ Hi). discriminate.
      * rewrite <- app_assoc in Es. cbn [app] in Es. rewrite Es. cbn [snd].
        destruct (d =? nl)%N eqn:E2; [|reflexivity]. lia.
Qed.

(** A line that does not end in a mark is kept. *)
Definition ends_mark (x : str) : Prop := exists y bl, x = y ++ bslash :: bl /\ Forall blank bl.
Lemma ends_mark_cons c x : ends_mark x -> ends_mark (c :: x).
Proof. intros (y & bl & -> & H). now exists (c :: y), bl. Qed.

Lemma unfold_keep x t : ~ In nl x -> ~ ends_mark x -> at_line_end t ->
  unfold_text (x ++ t) = x ++ unfold_text t.
Proof.
  intros Hn He Ht. induction x as [|c x IH]; [reflexivity|]. cbn [app].
  rewrite unfold_miss.
  - f_equal. apply IH; [intros H; apply Hn; now right|].
    intros H. apply He. now apply ends_mark_cons.
  - cbn [mark]. destruct (c =? bslash)%N eqn:E; [|reflexivity].
    destruct (span_line x t) as (bl & d & y & Ex & Es & Hd & Hdn).
    + intros H. apply Hn. now right.
    + intros bl Hbl ->. apply He. exists [], bl. apply N.eqb_eq in E. subst c. split; [reflexivity|].
      eapply Forall_impl; [|exact Hbl]. intros a. cbv beta. apply isb_blank.
    + rewrite Es. cbn [snd]. destruct (d =? nl)%N eqn:E2; [|reflexivity]. lia.
Qed.

Lemma unfold_nl t : unfold_text (nl :: t) = nl :: unfold_text t.
Proof. now apply unfold_nonbs. Qed.

(** Lines. *)
Lemma split_nl_line x t : ~ In nl x -> split_nl (x ++ nl :: t) = x :: split_nl t.
Proof.
  induction x as [|c x IH]; intros Hn; cbn [app split_nl]; [reflexivity|].
  destruct (c =? nl)%N eqn:E; [exfalso; apply Hn; left; lia|].
  rewrite IH; [reflexivity|]. intros H. apply Hn. now right.
Qed.
Lemma split_nl_last x : ~ In nl x -> split_nl x = [x].
Proof.
  induction x as [|c x IH]; intros Hn; cbn [split_nl]; [reflexivity|].
  destruct (c =? nl)%N eqn:E; [exfalso; apply Hn; left; lia|].
  rewrite IH; [reflexivity|]. intros H. apply Hn. now right.
Qed.
Lemma split_nl_cons s : split_nl s <> [].
Proof. destruct s as [|c s]; cbn; [discriminate|]. destruct (c =? nl)%N; [discriminate|]. destruct (split_nl s); discriminate. Qed.
Lemma split_nl_clean s l : In l (split_nl s) -> ~ In nl l.
Proof.
  revert l. induction s as [|c s IH]; intros l; cbn [split_nl].
  - intros [<-|[]] [].
  - destruct (c =? nl)%N eqn:E.
    + intros [<-|H]; [intros []|now apply IH].
    + destruct (split_nl s) as [|l0 ls].
      * intros [<-|[]] [H|[]]. lia.
      * intros [<-|H].
        -- intros [H|H]; [lia|]. apply (IH l0); [now left|exact H].
        -- apply IH. now right.
Qed.

Fixpoint join_nl (ls : list str) : str :=
  match ls with [] => [] | [l] => l | l :: ls' => l ++ nl :: join_nl ls' end.
Lemma join_split s : join_nl (split_nl s) = s.
Proof.
  induction s as [|c s IH]; [reflexivity|]. cbn [split_nl].
  pose proof (split_nl_cons s) as Hc.
  destruct (c =? nl)%N eqn:E.
  - apply N.eqb_eq in E. subst c. destruct (split_nl s) as [|l ls]; [contradiction|].
    cbn [join_nl app]. f_equal. exact IH.
  - destruct (split_nl s) as [|l ls]; [contradiction|].
    destruct ls as [|l2 ls]; cbn [join_nl app] in *; f_equal; exact IH.
Qed.
Lemma split_join ls : ls <> [] -> Forall (fun l => ~ In nl l) ls -> split_nl (join_nl ls) = ls.
Proof.
  intros Hne H. induction H as [|l ls Hl Hls IH]; [contradiction|].
  destruct ls as [|l2 ls]; [now apply split_nl_last|].
  change (join_nl (l :: l2 :: ls)) with (l ++ nl :: join_nl (l2 :: ls)).
  rewrite split_nl_line by exact Hl. f_equal. apply IH. discriminate.
Qed.

Lemma split_nl_app a t : split_nl (a ++ nl :: t) = split_nl a ++ split_nl t.
Proof.
  induction a as [|c a IH]; [reflexivity|]. cbn [app split_nl]. destruct (c =? nl)%N.
  - now rewrite IH.
  - rewrite IH. pose proof (split_nl_cons a). destruct (split_nl a); [contradiction|reflexivity].
Qed.

Lemma split_nl_line_of s l : In l (split_nl s) <-> line_of l s.
Proof.
  split.
  - intros H. split; [now apply (split_nl_clean s)|].
    rewrite <- (join_split s). induction (split_nl s) as [|l0 ls IH]; [contradiction|].
    destruct H as [->|H].
    + exists []. destruct ls as [|l2 ls].
      * exists []. cbn. rewrite app_nil_r. repeat split; now left.
      * exists (nl :: join_nl (l2 :: ls)). repeat split; [now left|right; eauto].
    + specialize (IH H). destruct IH as (a & z & E & Ha & Hz).
      destruct ls as [|l2 ls]; [contradiction|].
      exists (l0 ++ nl :: a), z. change (join_nl (l0 :: l2 :: ls)) with (l0 ++ nl :: join_nl (l2 :: ls)).
      rewrite E. rewrite <- app_assoc. cbn [app]. split; [reflexivity|]. split; [|exact Hz].
      right. destruct Ha as [->|[a' ->]]; [now exists l0|].
      exists (l0 ++ nl :: a'). now rewrite <- app_assoc.
  - intros (Hn & a & z & -> & Ha & Hz).
    assert (In l (split_nl (l ++ z))) as H0.
    { destruct Hz as [->|[z' ->]].
      - rewrite app_nil_r, split_nl_last by exact Hn. now left.
      - change NL with nl. rewrite split_nl_line by exact Hn. now left. }
    destruct Ha as [->|[a' ->]]; [exact H0|].
    rewrite <- app_assoc. cbn [app]. change NL with nl. rewrite split_nl_app.
    apply in_or_app. now right.
Qed.

Lemma split_nl_pre l z : ~ In nl l ->
  split_nl (l ++ z) = match split_nl z with y :: ls => (l ++ y) :: ls | [] => [] end.
Proof.
  intros Hn. induction l as [|c l IH]; cbn [app split_nl].
  - pose proof (split_nl_cons z). destruct (split_nl z); [contradiction|reflexivity].
  - destruct (c =? nl)%N eqn:E; [exfalso; apply Hn; left; lia|].
    rewrite IH by (intros H; apply Hn; now right).
    pose proof (split_nl_cons z). destruct (split_nl z); [contradiction|reflexivity].
Qed.
Lemma last_nl a : ~ In nl a \/ exists a1 a2, a = a1 ++ nl :: a2 /\ ~ In nl a2.
Proof.
  induction a as [|c a IH]; [left; intros []|].
  destruct IH as [H|(a1 & a2 & -> & H)].
  - destruct (N.eq_dec c nl) as [->|Hc].
    + right. now exists [], a.
    + left. intros [E|E]; [now apply Hc|contradiction].
  - right. now exists (c :: a1), a2.
Qed.

(** A piece of text without newline lies inside one line. *)
Lemma split_nl_infix a l z : ~ In nl l -> exists x y, In (x ++ l ++ y) (split_nl (a ++ l ++ z)).
Proof.
  intros Hn. pose proof (split_nl_cons z) as Hz.
  destruct (last_nl a) as [Ha|(a1 & a2 & -> & Ha)].
  - exists a. rewrite split_nl_pre by exact Ha. rewrite split_nl_pre by exact Hn.
    destruct (split_nl z) as [|y ls]; [contradiction|]. exists y. now left.
  - exists a2. rewrite <- app_assoc. cbn [app]. rewrite split_nl_app.
    rewrite split_nl_pre by exact Ha. rewrite split_nl_pre by exact Hn.
    destruct (split_nl z) as [|y ls]; [contradiction|]. exists y. apply in_or_app. right. now left.
Qed.
Lemma lines_bound n s : Forall (fun l => (length l <= n)%nat) (split_nl s) -> no_longer_than n s.
Proof.
  intros H a l z -> Hn. destruct (split_nl_infix a l z Hn) as (x & y & Hi).
  rewrite Forall_forall in H. specialize (H _ Hi). rewrite !app_length in H. lia.
Qed.

Lemma max_length_spec ls n : (max_length ls < n)%nat <-> (0 < n)%nat /\ forall l, In l ls -> (length l < n)%nat.
Proof.
  induction ls as [|l ls IH]; cbn [max_length fold_right].
  - split; [intros H; split; [lia|intros ? []]|tauto].
  - unfold max_length in IH. split.
    + intros H. assert (fold_right (fun l0 m => Nat.max (length l0) m) 0 ls < n)%nat as H1 by lia.
      apply IH in H1. destruct H1 as [H1 H2]. split; [exact H1|].
      intros x [<-|Hx]; [lia|auto].
    + intros [H1 H2]. assert (fold_right (fun l0 m => Nat.max (length l0) m) 0 ls < n)%nat as H3.
      { apply IH. split; [exact H1|]. intros x Hx. apply H2. now right. }
      specialize (H2 l (or_introl eq_refl)). lia.
Qed.

(** The folding loop. *)
Definition fold_cut (minw maxw : Z) (bit : str) : Z :=
  match re_search re_blanks (from minw bit) with
  | Some k => if (Z.of_nat k <? maxw - 1)%Z then (minw + Z.of_nat k)%Z else (maxw - 1)%Z
  | None => (maxw - 1)%Z
  end.
Lemma fold_cut_bound minw maxw bit : (0 < minw < maxw)%Z -> (maxw < Z.of_nat (length bit))%Z ->
  (1 <= fold_cut minw maxw bit <= minw + maxw - 2)%Z /\ (fold_cut minw maxw bit < Z.of_nat (length bit))%Z.
Proof.
  intros H Hl. unfold fold_cut.
  destruct (re_search re_blanks (from minw bit)) as [k|] eqn:E; [|lia].
  destruct (Z.of_nat k <? maxw - 1)%Z eqn:E2; [|lia].
  split; [lia|].
  assert (k < length (from minw bit))%nat as Hk.
  { clear -E. revert k E. induction (from minw bit) as [|c s IH]; intros k E; cbn [re_search] in E.
    - discriminate.
    - destruct (re_match re_blanks (c :: s)); [injection E as <-; cbn; lia|].
      destruct (re_search re_blanks s) as [j|]; [|discriminate]. injection E as <-.
      specialize (IH j eq_refl). cbn. lia. }
  unfold from, slice_pos in Hk. rewrite skipn_length in Hk.
  replace (minw <? 0)%Z with false in Hk by lia. lia.
Qed.
Lemma upto_from i s : upto i s ++ from i s = s.
Proof. apply firstn_skipn. Qed.
Lemma fold_loop_eq fuel minw maxw bit :
  fold_loop fuel minw maxw bit =
  if (Z.of_nat (length bit) >? maxw)%Z then
    match fuel with
    | O => Raise OutOfFuel
    | Datatypes.S fuel' =>
        obind (fold_loop fuel' minw maxw (from (fold_cut minw maxw bit) bit)) (fun r =>
        Ret (upto (fold_cut minw maxw bit) bit ++ [bslash; nl] ++ fst r, snd r))
    end
  else Ret ([], bit).
Proof. destruct fuel; reflexivity. Qed.

(** Result of the loop: marked pieces, then a last bit. *)
Inductive pieces (n : nat) : str -> str -> str -> Prop :=
| pieces_nil bit : pieces n bit [] bit
| pieces_cons a bit out last : (length a <= n)%nat -> pieces n bit out last ->
    pieces n (a ++ bit) (a ++ [bslash; nl] ++ out) last.

Lemma fold_loop_pieces minw maxw fuel : (0 < minw < maxw)%Z -> forall bit, bit <> [] ->
  (length bit <= fuel)%nat ->
  exists out last, fold_loop fuel minw maxw bit = Ret (out, last) /\ last <> [] /\
    (Z.of_nat (length last) <= maxw)%Z /\ pieces (Z.to_nat (minw + maxw - 2)) bit out last.
Proof.
  intros Hw. induction fuel as [|fuel IH]; intros bit Hne Hf; rewrite fold_loop_eq.
  - destruct bit; [contradiction|]. cbn in Hf. lia.
  - destruct (Z.of_nat (length bit) >? maxw)%Z eqn:E.
    + destruct (fold_cut_bound minw maxw bit Hw) as [Hc Hc2]; [lia|].
      set (c := fold_cut minw maxw bit) in *.
      assert (slice_pos (length bit) c = Z.to_nat c) as Hs.
      { unfold slice_pos. replace (c <? 0)%Z with false by lia. reflexivity. }
      destruct (IH (from c bit)) as (out & last & E1 & H1 & H2 & H3).
      * unfold from. rewrite Hs. intros H. apply (f_equal (@length N)) in H. rewrite skipn_length in H. cbn in H. lia.
      * unfold from. rewrite Hs, skipn_length. lia.
      * rewrite E1. cbn [obind fst snd]. eexists _, last. split; [reflexivity|]. split; [exact H1|]. split; [exact H2|].
        rewrite <- (upto_from c bit) at 1. constructor; [|exact H3].
        unfold upto. rewrite Hs, firstn_length. lia.
    + exists [], bit. repeat split; auto; [lia|]. constructor.
Qed.
