(** Ordinary texts are read back. *)
From Coq Require Import String Ascii List NArith ZArith Bool Lia ZifyBool ZifyN ZifyNat Permutation.
From Verif Require Import PyBase PyFacts RegexModel FoldModel StarBlockModel LoopModel ScanModel FormatModel ReadModel WriteModel ParseModel
  FoldSpec StarBlockSpec LoopSpec ReadSpec ScanSpec FormatSpec WriteSpec ParseSpec LoopProofs FoldProofs FoldProofs2 FormatProofs FormatProofs2 ParseProofs5.
Import ListNotations.
Open Scope nat_scope.

Lemma ordinary_no s c : ordinary s -> is_space c = true -> ~ In c [32; 9; 10]%N -> ~ In c s.
Proof. intros (H & _) Hs Hn Hi. destruct (H c Hi); [congruence|tauto]. Qed.
Lemma ordinary_requested g maxout req b s f : req <> Some [QS; QS; QS] -> req <> Some [QD; QD; QD] -> ordinary s ->
  format_string g maxout req s = Ret f -> readable b s f.
Proof.
  intros Nt1 Nt2 Ho Hf. destruct (format_written g maxout req s) as (d & f' & Ef & Hw & Hd). rewrite Hf in Ef. injection Ef as <-.
  pose proof (choose_spec g maxout req s) as [A _]. cbv zeta in A. rewrite <- Hd in A.
  assert (d = None \/ (exists q, d = Some [q] /\ (q = QS \/ q = QD)) \/ d = Some [NL; SC]) as Hc.
  { destruct (existsb (delim_eqb req) (allowed g maxout s)) eqn:Er.
    - assert (d = req) as -> by (rewrite Hd; unfold choose; now rewrite Er). clear -A Nt1 Nt2.
      destruct req as [[|a [|b [|c [|x r]]]]|]; cbn [admissible] in A; try contradiction; [| | |now left].
      + right. left. exists a. split; [reflexivity|tauto].
      + right. right. destruct A as [-> ->]. reflexivity.
      + destruct A as (_ & <- & <- & [->| ->]); congruence.
    - rewrite Hd. unfold choose. rewrite Er. destruct (existsb (delim_eqb d_sq) _); [right; left; exists QS; split; [reflexivity|now left]|].
      destruct (existsb (delim_eqb d_dq) _); [right; left; exists QD; split; [reflexivity|now right]|]. right. right. reflexivity. }
  pose proof Ho as (_ & Hbs & Hhash & Hstop & Hloop).
  destruct Hc as [->|[(q & -> & Hq)| ->]]; cbn [written admissible] in *.
  - rewrite Hw in *. destruct A as (_ & _ & Hnl & Hnp & _). unfold readable.
    assert (forall x y : str, x <> [] -> s <> x ++ s ++ y) as Hlen.
    { intros x y Hx E. apply (f_equal (@length N)) in E. rewrite !app_length in E. destruct x; [congruence|]. cbn in E. lia. }
    split; [intros _; split; [|split; [exact Hstop|intros _; exact Hloop]]|].
    + intros c Hi. destruct Ho as (Ho & _). destruct (Ho c Hi) as [H|H]; [exact H|]. exfalso. destruct H as [<-|[<-|[<-|[]]]]; [| |now apply Hnl].
      * apply (Hnp 32%N); [cbn; tauto|exact Hi].
      * apply (Hnp 9%N); [cbn; tauto|exact Hi].
    + split; [intros q _ E; now apply Hlen in E|]. split; [intros q _ E; now apply Hlen in E|].
      intros p E. exfalso. apply Hnl. rewrite E. now left.
  - rewrite Hw in *. unfold readable. split; [|split; [|split]].
    + intros E. exfalso. apply (f_equal (@length N)) in E. rewrite !app_length in E. cbn in E. lia.
    + intros q' _ _. split; [|intros _]; apply (ordinary_no s _ Ho); try reflexivity; cbn; intuition discriminate.
    + intros q' _ E. exfalso. apply (f_equal (@length N)) in E. rewrite !app_length in E. cbn in E. lia.
    + intros p E. exfalso. cbn in E. injection E as E _. destruct Hq as [->| ->]; discriminate.
  - destruct (text_field_spec maxout s) as (o & p0 & Eo & Ep & Et & _ & Hch).
    assert (f = [NL; SC] ++ p0 ++ [NL; SC]) as ->.
    { unfold format_string in Hf. rewrite <- Hd in Hf. change (existsb (str_eqb [NL; SC]) [[dq]; [sq]; [dq; dq; dq]; [sq; sq; sq]]) with false in Hf. cbn iota in Hf. rewrite Et in Hf. now injection Hf as <-. }
    unfold readable. split; [|split; [|split]].
    + intros E. exfalso.
      assert (~ In BS p0) as Hb by (intros H; apply Hbs; rewrite <- E, !in_app_iff; tauto).
      destruct (prefix_step_spec o) as (p1 & Ep1 & _ & Hp & _). rewrite Ep in Ep1. injection Ep1 as <-.
      destruct Hp as [->|[k Hk]].
      * destruct (fold_step_spec maxout s) as (o1 & Eo1 & Ho1 & _). rewrite Eo in Eo1. injection Eo1 as <-.
        destruct Ho1 as [->|(r & -> & _)]; [|apply Hb; now left].
        apply (f_equal (@length N)) in E. rewrite !app_length in E. cbn in E. lia.
      * rewrite good_prefix_apply in Hk by apply chosen_prefix_good. apply Hb.
        destruct (re_match re_fold_header o) as [[m r]|]; injection Hk as <-; do 4 right; apply in_or_app; right; now left.
    + intros q [->| ->] E; discriminate.
    + intros q [->| ->] E; discriminate.
    + intros p E. apply app_inv_head in E. apply app_inv_tail in E. subst p.
      split; [apply (ordinary_no s _ Ho); try reflexivity; cbn; intuition discriminate|].
      split; [intros bl r [-> _]; apply Hbs; now left|]. split; [|split].
      * intros _ (c & q & bs & bl & r & E & _ & _ & _ & _ & _ & Hb & _). apply Hbs. rewrite E. rewrite !in_app_iff. right. left. destruct Hb as [->| ->]; now left.
      * intros _ (a & b' & bl & z & E & _). apply Hbs. rewrite E. apply in_or_app. right. now left.
      * intros (a & l & c & b' & E & _). assert (In 35%N p0) as H by (rewrite E, !in_app_iff; right; right; left; now left).
        destruct (Hch _ H) as [H'|[H'|[H'|H']]]; [tauto|cbn in H'; intuition discriminate|discriminate|discriminate].
Qed.
Lemma ordinary_clear g maxout b s : ordinary s -> clear_text g maxout b s.
Proof. intros Ho f. now apply ordinary_requested. Qed.
Lemma ordinary_hinted g maxout hs b s : ~ In (Some [QS; QS; QS]) (map h_delim hs) -> ~ In (Some [QD; QD; QD]) (map h_delim hs) ->
  ordinary s -> clear_hinted g maxout hs b s.
Proof.
  intros H1 H2 Ho req f Hr. apply ordinary_requested; [| |exact Ho]; intros ->; destruct Hr as [Hr|Hr]; try discriminate; contradiction.
Qed.
Lemma ordinary_legible g maxout v : has_triples g \/ compound v = false -> ordinary_value v -> forall b, legible g maxout b None v.
Proof.
  induction v as [s|s| |l IH|l IH|d IH] using value_rect'; intros Hg H b; inversion H; subst.
  - constructor. now apply ordinary_clear.
  - destruct Hg as [Hg|Hg]; [|discriminate]. constructor; [exact Hg|]. rewrite Forall_forall in *. auto.
  - destruct Hg as [Hg|Hg]; [|discriminate]. constructor; [exact Hg|]. rewrite Forall_forall in *. auto.
  - destruct Hg as [Hg|Hg]; [|discriminate]. constructor; [exact Hg|assumption|]. rewrite Forall_forall in *. intros kv Hi.
    match goal with X : forall x, In x d -> key_ok _ /\ _ |- _ => destruct (X kv Hi) end. auto.
Qed.
