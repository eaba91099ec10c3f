(** Items read one after another are one group. *)
From Coq Require Import String Ascii List NArith PeanoNat Bool Lia.
From Verif Require Import PyBase PyFacts ScanModel ReadModel ParseModel ScanSpec ScanProofs2 GrammarSpec WholeSpec.
Import ListNotations.
Open Scope nat_scope.

Section Groups.
Context (g : grammar).
Definition seen (t : tok) (st : pstate) : Prop := exists m r, p_pend st = Some (t, m, r).
Lemma peek_seen R st t st' : peek g R st = Ret (t, st') -> seen t st' /\ forall t0, seen t0 st -> t = t0.
Proof.
  unfold peek, token. intros H. destruct (p_pend st) as [[[t1 m1] r1]|] eqn:P.
  - destruct (negb _); [discriminate|]. cbn [obind] in H. injection H as <- <-. split; [now exists m1, r1|]. intros t0 (m & r & E). rewrite P in E. now injection E as <- _ _.
  - destruct (scan g R (p_inp st)) as [[[t1 m1] r1]|e]; cbn [obind] in H; [|discriminate]. injection H as <- <-. split; [now exists m1, R|]. intros t0 (m & r & E). rewrite P in E. discriminate.
Qed.
Lemma more_seen fuel : forall acc st l st', data_more fuel g acc st = Ret (l, st') -> exists t, seen t st' /\ expect [LBlock; DataName] t = false.
Proof.
  induction fuel as [|fuel IH]; intros acc st l st' H; cbn [data_more] in H; destruct (peek g item_follow st) as [[t st1]|e] eqn:P; cbn [obind] in H; try discriminate;
    destruct (expect [LBlock; DataName] t) eqn:E.
  - discriminate.
  - destruct (expect item_follow t); [|discriminate]. injection H as _ <-. exists t. split; [exact (proj1 (peek_seen _ _ _ _ P))|exact E].
  - destruct (data_item g st1) as [[i st2]|e]; cbn [obind] in H; [|discriminate]. exact (IH _ _ _ _ H).
  - destruct (expect item_follow t); [|discriminate]. injection H as _ <-. exists t. split; [exact (proj1 (peek_seen _ _ _ _ P))|exact E].
Qed.
Lemma contents_grouped fuel : forall b st cs st', contents fuel g b st = Ret (cs, st') ->
  grouped cs /\ ((exists t, seen t st /\ expect [LBlock; DataName] t = false) -> match cs with CItems _ :: _ => False | _ => True end).
Proof.
  induction fuel as [|fuel IH]; intros b st cs st' H; cbn [contents] in H; [discriminate|].
  destruct (peek g item_follow st) as [[t st1]|e] eqn:P; cbn [obind] in H; [|discriminate]. destruct (peek_seen _ _ _ _ P) as [S1 S2].
  destruct (expect [LBlock; DataName] t) eqn:E.
  - destruct (data_seq g st1) as [[l st2]|e] eqn:D; cbn [obind fst snd] in H; [|discriminate].
    destruct (contents fuel g b st2) as [[cs2 st3]|e] eqn:C; cbn [obind fst snd] in H; [|discriminate]. injection H as <- <-.
    destruct (IH _ _ _ _ C) as [G1 G2]. split; [|intros (t0 & T0 & X); rewrite <- (S2 _ T0) in X; congruence].
    apply gr_items; [|exact G1]. apply G2. unfold data_seq in D. destruct (data_item g st1) as [[i st4]|e]; cbn [obind fst snd] in D; [|discriminate]. exact (more_seen _ _ _ _ _ D).
  - destruct (tok_eqb t SaveHeading && _) eqn:B.
    + destruct (take g SaveHeading st1) as [[h st2]|e]; cbn [obind fst snd] in H; [|discriminate].
      destruct (contents fuel g true st2) as [[l st3]|e] eqn:C; cbn [obind fst snd] in H; [|discriminate].
      destruct (take g SaveEnd st3) as [[e st4]|e]; cbn [obind fst snd] in H; [|discriminate].
      destruct (contents fuel g b st4) as [[cs2 st5]|e'] eqn:C2; cbn [obind fst snd] in H; [|discriminate]. injection H as <- <-.
      split; [|intros _; exact I]. apply gr_frame; [exact (proj1 (IH _ _ _ _ C))|exact (proj1 (IH _ _ _ _ C2))].
    + destruct (expect item_follow t); [|discriminate]. injection H as <- <-. split; [constructor|intros _; exact I].
Qed.
Lemma more_grouped fuel : forall acc st ds, parse_more fuel g acc st = Ret ds -> Forall (fun d => grouped (d_contents d)) acc -> Forall (fun d => grouped (d_contents d)) ds.
Proof.
  induction fuel as [|fuel IH]; intros acc st ds H F; cbn [parse_more] in H; destruct (peek g [DataHeading; End] st) as [[t st1]|e]; cbn [obind] in H; try discriminate; destruct (tok_eqb t DataHeading).
  - discriminate.
  - destruct (take g End st1); cbn [obind] in H; [|discriminate]. now injection H as <-.
  - unfold parse_dblock in H. destruct (take g DataHeading st1) as [[h st2]|e]; cbn [obind fst snd] in H; [|discriminate].
    destruct (contents (S (size st2)) g false st2) as [[cs st3]|e] eqn:C; cbn [obind fst snd] in H; [|discriminate]. apply (IH _ _ _ H). apply Forall_app. split; [exact F|].
    constructor; [|constructor]. exact (proj1 (contents_grouped _ _ _ _ _ C)).
  - destruct (take g End st1); cbn [obind] in H; [|discriminate]. now injection H as <-.
Qed.
Theorem file_grouped s ds : parse_file g s = Ret ds -> Forall (fun d => grouped (d_contents d)) ds.
Proof. intros H. exact (more_grouped _ _ _ _ H (Forall_nil _)). Qed.
End Groups.
