(** Text fields written by [text_field]: form, characters, and undoing of the
    protocols. *)
From Coq Require Import String Ascii List NArith ZArith Bool Lia ZifyBool ZifyN ZifyNat.
From Verif Require Import PyBase PyFacts RegexModel RegexFacts FoldModel ScanModel FormatModel
  FoldSpec FoldProofs FoldProofs2 ScanSpec FormatSpec ScanProofs FormatProofs.
Import ListNotations.
Open Scope nat_scope.

(** ** Characters *)
Lemma pieces_chars n bit out last c : pieces n bit out last -> In c (out ++ last) -> In c bit \/ c = bslash \/ c = nl.
Proof.
  induction 1 as [bit|a bit out last _ _ IH]; intros H; [now left|].
  rewrite <- !app_assoc in H. apply in_app_or in H. destruct H as [H|[H|[H|H]]].
  - left. apply in_or_app. now left.
  - right. left. now symmetry.
  - right. right. now symmetry.
  - destruct (IH H) as [H1|H1]; [left; apply in_or_app; now right|now right].
Qed.
Lemma line_image_chars n m l o c : line_image n m l o -> In c o -> In c l \/ c = bslash \/ c = nl.
Proof.
  intros (out & last & Hp & _ & ->) H. rewrite app_assoc in H. apply in_app_or in H. destruct H as [H|H].
  - eapply pieces_chars; eauto.
  - destruct (ends_bslash last); [|destruct H]. destruct H as [H|[H|[]]]; [right; left|right; right]; now symmetry.
Qed.
Lemma join_raw_chars os c : In c (join_raw os) -> (exists o, In o os /\ In c o) \/ c = nl.
Proof.
  induction os as [|o os IH]; [intros []|]. destruct os as [|o2 os].
  - cbn. intros H. left. exists o. tauto.
  - change (join_raw (o :: o2 :: os)) with (o ++ nl :: join_raw (o2 :: os)). intros H. apply in_app_or in H.
    destruct H as [H|[H|H]]; [left; exists o; split; [now left|exact H]|right; now symmetry|].
    destruct (IH H) as [(x & Hx & Hc)|Hc]; [left; exists x; split; [now right|exact Hc]|now right].
Qed.
Lemma split_nl_chars s l c : In l (split_nl s) -> In c l -> In c s.
Proof.
  intros Hl Hc. apply split_nl_line_of in Hl. destruct Hl as (_ & a & z & -> & _). rewrite !in_app_iff. tauto.
Qed.
Lemma Forall2_In_r {A B} (R : A -> B -> Prop) la lb b : Forall2 R la lb -> In b lb -> exists a, In a la /\ R a b.
Proof. induction 1 as [|x y la lb H _ IH]; [intros []|]. intros [<-|Hb]; [exists x; split; [now left|exact H]|]. destruct (IH Hb) as (a & Ha & Hr). exists a. split; [now right|exact Hr]. Qed.

(** ** The folding step *)
Definition fold_step (maxout : Z) (s : str) : outcome str :=
  if (Z.of_nat (max_length (split_nl s)) >? maxout)%Z then apply_line_folding (length s) 60 80 s else Ret s.
Lemma fold_step_spec maxout s : exists o, fold_step maxout s = Ret o
  /\ (o = s \/ exists rest, o = BS :: NL :: rest /\ (~ dangling s -> remove_line_folding o = s))
  /\ (forall c, In c o -> In c s \/ c = BS \/ c = NL).
Proof.
  unfold fold_step. destruct (_ >? _)%Z; [|exists s; split; [reflexivity|]; split; [now left|tauto]].
  destruct (needs_fold 80 s) eqn:E.
  - destruct (apply_fold_image 60 80 (length s) s ltac:(lia) (Nat.le_refl _) E) as (os & Eo & Hne & Hos).
    exists ([bslash; nl] ++ join_raw os). split; [exact Eo|]. split.
    + right. exists (join_raw os). split; [reflexivity|]. intros Hd.
      destruct (fold_roundtrip 60 80 (length s) s ltac:(lia) (Nat.le_refl _) E Hd) as (o & E2 & H2).
      rewrite Eo in E2. injection E2 as <-. exact H2.
    + intros c Hc. apply in_app_or in Hc. destruct Hc as [[Hc|[Hc|[]]]|Hc]; [right; left; now symmetry|right; right; now symmetry|].
      apply join_raw_chars in Hc. destruct Hc as [(o & Ho & Hc)|Hc]; [|right; now right].
      destruct (Forall2_In_r _ _ _ _ Hos Ho) as (l & Hl & Hlo). apply (line_image_chars _ _ _ _ _ Hlo) in Hc.
      destruct Hc as [Hc|Hc]; [left; eapply split_nl_chars; eauto|now right].
  - rewrite apply_fold_same by exact E. exists s. split; [reflexivity|]. split; [now left|tauto].
Qed.

(** ** The prefix step *)
Lemma py_replace_chars p s c : In c (py_replace [nl] (nl :: p) s) -> In c s \/ In c p.
Proof.
  induction s as [|x s IH]; [intros []|]. unfold py_replace. cbn [replace_go starts_with].
  destruct (nl =? x)%N eqn:E; cbn [andb].
  - apply N.eqb_eq in E. subst x. change (length [nl] - 1) with 0. fold (py_replace [nl] (nl :: p) s).
    intros H. apply in_app_or in H. destruct H as [[H|H]|H].
    + left. now left.
    + now right.
    + destruct (IH H); [left; now right|now right].
  - fold (py_replace [nl] (nl :: p) s). intros [H|H]; [left; now left|]. destruct (IH H); [left; now right|now right].
Qed.
Lemma re_match_suffix r s m t c : re_match r s = Some (m, t) -> In c t -> In c s.
Proof. intros H Hc. apply re_match_split in H. subst s. apply in_or_app. now right. Qed.
Lemma prefix_chars s p o c : good_prefix p -> apply_line_prefix s p = Ret o -> In c o -> In c s \/ In c p \/ c = BS \/ c = NL.
Proof.
  intros Hp E Hc. rewrite good_prefix_apply in E by exact Hp. unfold bslash, nl in *.
  destruct (re_match re_fold_header s) as [[m rest]|] eqn:Eh; injection E as <-; cbn [app] in Hc;
    rewrite ?in_app_iff in Hc; cbn [In] in Hc; rewrite ?in_app_iff in Hc; unfold BS, NL.
  - destruct Hc as [Hc|[Hc|[Hc|[Hc|[Hc|Hc]]]]]; [tauto|auto|auto|auto|tauto|].
    apply py_replace_chars in Hc. destruct Hc as [Hc|Hc]; [left; eapply re_match_suffix; eauto|tauto].
  - destruct Hc as [Hc|[Hc|[Hc|[Hc|Hc]]]]; [tauto|auto|auto|tauto|].
    apply py_replace_chars in Hc. tauto.
Qed.
Definition cif_prefix (k : nat) : str := (u "CIF:" ++ repeat 58%N k) ++ u "> ".
Lemma cif_prefix_chars k c : In c (cif_prefix k) -> In c (u "CIF:> ").
Proof.
  unfold cif_prefix. rewrite !in_app_iff. intros [[H|H]|H]; [|apply repeat_spec in H; subst; cbn; tauto|]; cbn in *; tauto.
Qed.
Lemma prefix_total s p : good_prefix p -> exists o, apply_line_prefix s p = Ret o.
Proof. intros Hp. rewrite good_prefix_apply by exact Hp. destruct (re_match re_fold_header s) as [[m r]|]; eauto. Qed.

Definition prefix_step (o : str) : outcome str :=
  if substr [nl; semi] o then
    obind (find_prefix (length o) (u "CIF:") o) (fun x => apply_line_prefix o (x ++ u "> "))
  else Ret o.
Lemma prefix_step_spec o : exists p, prefix_step o = Ret p /\ no_terminator p
  /\ (p = o \/ exists k, apply_line_prefix o (cif_prefix k) = Ret p)
  /\ (forall c, In c p -> In c o \/ In c (u "CIF:> ") \/ c = BS \/ c = NL).
Proof.
  unfold prefix_step. destruct (substr [nl; semi] o) eqn:E.
  - destruct (find_prefix_total (length o) (u "CIF:") o) as (k & Ek & _); [cbn; lia|].
    rewrite Ek. cbn [obind]. fold (cif_prefix k).
    destruct (prefix_total o (cif_prefix k) (chosen_prefix_good k)) as [p Ep].
    exists p. split; [exact Ep|]. split; [eapply prefix_no_terminator; [apply (chosen_prefix_good k)|exact Ep]|].
    split; [right; now exists k|]. intros c Hc.
    destruct (prefix_chars _ _ _ _ (chosen_prefix_good k) Ep Hc) as [H|[H|H]]; [tauto| |tauto].
    right. left. eapply cif_prefix_chars; eauto.
  - exists o. split; [reflexivity|]. split; [|split; [now left|tauto]].
    intros a z ->. assert (substr [nl; semi] (a ++ NL :: SC :: z) = true); [|congruence].
    apply substr_spec. exists a, z. reflexivity.
Qed.
Lemma text_field_eq maxout s : text_field maxout s =
  obind (fold_step maxout s) (fun o => obind (prefix_step o) (fun p => Ret ([nl; semi] ++ p ++ [nl; semi]))).
Proof. reflexivity. Qed.

(** ** Undoing the protocols *)
Lemma chr_star_In p s m t : In (m, t) (chr_star p s) -> s = m ++ t /\ Forall (fun c => p c = true) m.
Proof.
  revert m t. induction s as [|c s IH]; intros m t H.
  - cbn in H. destruct H as [H|[]]. injection H as <- <-. split; [reflexivity|constructor].
  - cbn in H. destruct (p c) eqn:E.
    + apply in_app_or in H. destruct H as [H|[H|[]]].
      * apply in_map_iff in H. destruct H as [[m' t'] [H1 H2]]. unfold pre in H1. cbn in H1. injection H1 as <- <-.
        apply IH in H2. destruct H2 as [-> H2]. split; [reflexivity|]. now constructor.
      * injection H as <- <-. split; [reflexivity|constructor].
    + destruct H as [H|[]]. injection H as <- <-. split; [reflexivity|constructor].
Qed.
Lemma seq_In a b s m t : In (m, t) (rmatch (RSeq a b) s) ->
  exists m1 m2 r, m = m1 ++ m2 /\ In (m1, r) (rmatch a s) /\ In (m2, t) (rmatch b r).
Proof.
  rewrite rmatch_seq. intros H. apply in_flat_map in H. destruct H as [[m1 r] [H1 H2]].
  apply in_map_iff in H2. destruct H2 as [[m2 t'] [E H2]]. unfold pre in E. cbn in E. injection E as <- <-.
  exists m1, m2, r. auto.
Qed.
Lemma chr_In p s m t : In (m, t) (rmatch (RChr p) s) -> exists c, m = [c] /\ s = c :: t /\ p c = true.
Proof.
  cbn. destruct s as [|c s]; [intros []|]. destruct (p c) eqn:E; [|intros []]. intros [H|[]]. injection H as <- <-. eauto.
Qed.
Lemma existsb_not c l : existsb (N.eqb c) l = false -> ~ In c l.
Proof. intros H Hi. assert (existsb (N.eqb c) l = true); [|congruence]. apply existsb_exists. exists c. split; [exact Hi|apply N.eqb_refl]. Qed.

Lemma prefix_header_spec s p f r : re_match2 re_prefix re_prefix_end s = Some (p, f, r) ->
  prefix_header s /\ s = p ++ f ++ r /\ 2 <= length p /\ 2 <= length f /\ (starts_with [bslash; bslash] f = true -> 3 <= length f).
Proof.
  unfold re_match2. intros H.
  assert (In (p, f, r) (flat_map (fun cr => map (fun cr2 => (fst cr, fst cr2, snd cr2)) (rmatch re_prefix_end (snd cr))) (rmatch re_prefix s))) as Hi.
  { destruct (flat_map _ _); [discriminate|]. injection H as ->. now left. }
  clear H. apply in_flat_map in Hi. destruct Hi as [[p' t] [H1 H2]]. cbn [fst snd] in H2.
  apply in_map_iff in H2. destruct H2 as [[f' r'] [E H2]]. cbn in E. injection E as -> -> ->.
  pose proof (rmatch_split _ _ _ _ H1) as Es. pose proof (rmatch_split _ _ _ _ H2) as Et. subst s t.
  unfold re_prefix in H1. apply seq_In in H1. destruct H1 as (m1 & m2 & x & -> & A & B).
  unfold none_of in A. apply chr_In in A. destruct A as (c & -> & _ & Hc).
  unfold rplus in B. apply seq_In in B. destruct B as (m3 & m4 & y & -> & B & C).
  unfold none_of in B. apply chr_In in B. destruct B as (c2 & -> & _ & Hc2).
  unfold none_of in C. rewrite rmatch_star_chr in C. apply chr_star_In in C. destruct C as [_ C].
  unfold re_prefix_end in H2. cbn [rseq] in H2. apply seq_In in H2. destruct H2 as (b1 & b2 & z & -> & D & F).
  apply seq_In in F. destruct F as (bl & b3 & w & -> & F & G). unfold one_of in F. rewrite rmatch_star_chr in F. apply chr_star_In in F.
  destruct F as [_ F]. unfold is in G. apply chr_In in G. destruct G as (d & -> & _ & Hd). apply N.eqb_eq in Hd. subst d.
  assert (b1 = [BS] \/ b1 = [BS; BS]) as Hb1.
  { unfold r12 in D. cbn [rmatch] in D. fold (rmatch (RSeq (is bslash) (is bslash)) (b1 ++ z)) in D.
    apply in_app_or in D. destruct D as [D|D].
    - apply seq_In in D. destruct D as (d1 & d2 & v & -> & D1 & D2). unfold is in D1, D2. apply chr_In in D1. apply chr_In in D2.
      destruct D1 as (e1 & -> & _ & E1). destruct D2 as (e2 & -> & _ & E2). apply N.eqb_eq in E1, E2. subst. now right.
    - change (In (b1, z) (rmatch (is bslash) ((b1 ++ bl ++ [nl]) ++ r))) in D || idtac.
      unfold is in D. apply chr_In in D. destruct D as (e1 & -> & _ & E1). apply N.eqb_eq in E1. subst. now left. }
  apply negb_true_iff, existsb_not in Hc. apply negb_true_iff, existsb_not in Hc2. split.
  - exists c, (c2 :: m4), b1, bl, r. split; [rewrite <- !app_assoc; reflexivity|].
    split; [intros ->; apply Hc; cbn; tauto|]. split; [intros ->; apply Hc; cbn; tauto|]. split; [discriminate|].
    assert (forall k, In k [nl; bslash] -> ~ In k (c2 :: m4)) as Hk.
    { intros k Hk [->|Hm]; [tauto|]. rewrite Forall_forall in C. specialize (C k Hm). apply negb_true_iff, existsb_not in C. tauto. }
    split; [apply Hk; cbn; tauto|]. split; [apply Hk; cbn; tauto|]. split; [exact Hb1|].
    eapply Forall_impl; [|exact F]. intros e He. cbn in He. unfold blank. lia.
  - split; [reflexivity|]. split; [cbn; lia|]. split.
    + rewrite !app_length. destruct Hb1 as [->| ->]; cbn; lia.
    + destruct Hb1 as [->| ->]; rewrite !app_length; cbn [length]; [|lia].
      intros Hst. destruct bl as [|e bl]; [cbn in Hst; discriminate|cbn; lia].
Qed.
Lemma no_prefix_header s : ~ prefix_header s -> remove_line_prefix s = s.
Proof.
  intros H. unfold remove_line_prefix. destruct (re_match2 re_prefix re_prefix_end s) as [[[p f] r]|] eqn:E; [|reflexivity].
  exfalso. apply H. now apply prefix_header_spec in E.
Qed.
Lemma folded_no_prefix rest : remove_line_prefix (BS :: NL :: rest) = BS :: NL :: rest.
Proof.
  apply no_prefix_header. intros (c & p & bs & bl & r & E & _ & _ & Hp & Hn & _). destruct p as [|d p]; [congruence|].
  cbn in E. injection E as _ E _. apply Hn. now left.
Qed.
Lemma undo_protocols maxout s o p : text_ok s p -> fold_step maxout s = Ret o -> prefix_step o = Ret p ->
  remove_line_folding (remove_line_prefix p) = s.
Proof.
  intros (_ & Hf & Hp & Hd & _) Eo Ep. destruct (list_eq_dec N.eq_dec p s) as [E|Hne].
  { rewrite E, (no_prefix_header s (Hp E)). now apply unfold_plain. }
  specialize (Hd Hne). clear Hp.
  destruct (fold_step_spec maxout s) as (o' & Eo' & Ho & _). rewrite Eo in Eo'. injection Eo' as <-.
  destruct (prefix_step_spec o) as (p' & Ep' & _ & Hpp & _). rewrite Ep in Ep'. injection Ep' as <-.
  destruct Hpp as [->|[k Hk]].
  - destruct Ho as [->|(rest & -> & H)]; [congruence|]. rewrite folded_no_prefix. now apply H.
  - destruct Ho as [->|(rest & -> & H)].
    + destruct (prefix_plain (cif_prefix k) s (chosen_prefix_good k) Hf) as (x & Ex & Hx). rewrite Hk in Ex. injection Ex as <-.
      rewrite Hx. now apply unfold_plain.
    + destruct (prefix_folded (cif_prefix k) [] rest (chosen_prefix_good k) ltac:(constructor)) as (x & Ex & Hx).
      cbn [app] in Ex. unfold bslash, nl in *. unfold BS, NL in *. rewrite Hk in Ex. injection Ex as <-. rewrite Hx. now apply H.
Qed.
Lemma text_field_spec maxout s : exists o p, fold_step maxout s = Ret o /\ prefix_step o = Ret p
  /\ text_field maxout s = Ret ([NL; SC] ++ p ++ [NL; SC]) /\ no_terminator p
  /\ (forall c, In c p -> In c s \/ In c (u "CIF:> ") \/ c = BS \/ c = NL).
Proof.
  destruct (fold_step_spec maxout s) as (o & Eo & _ & Hco). destruct (prefix_step_spec o) as (p & Ep & Hn & _ & Hcp).
  exists o, p. split; [exact Eo|]. split; [exact Ep|]. split; [rewrite text_field_eq, Eo; cbn [obind]; rewrite Ep; reflexivity|].
  split; [exact Hn|]. intros c Hc. destruct (Hcp c Hc) as [H|H]; [|tauto]. destruct (Hco c H) as [H1|H1]; tauto.
Qed.

(** ** C22 *)
Lemma format_written g maxout req s : exists d f, format_string g maxout req s = Ret f /\ written d s f
  /\ d = choose req (allowed g maxout s).
Proof.
  unfold format_string. exists (choose req (allowed g maxout s)).
  pose proof (choose_spec g maxout req s) as [A _]. cbv zeta in A.
  destruct (choose req (allowed g maxout s)) as [q|]; [|exists s; repeat split; reflexivity].
  destruct q as [|a [|b [|c [|x y]]]]; cbn [admissible] in A; try tauto.
  - destruct A as [A _]. exists ([a] ++ s ++ [a]). destruct A as [->| ->]; repeat split; reflexivity.
  - destruct A as [-> ->]. destruct (text_field_spec maxout s) as (o & p & _ & _ & E & Hn & _).
    exists ([NL; SC] ++ p ++ [NL; SC]). split; [exact E|]. split; [|reflexivity]. exists p. split; [reflexivity|exact Hn].
  - destruct A as (_ & <- & <- & A). exists ([a; a; a] ++ s ++ [a; a; a]). destruct A as [->| ->]; repeat split; reflexivity.
Qed.
