(** A method that is read closes its parentheses, so every method is read alike. *)
From Coq Require Import String Ascii List NArith PeanoNat Bool Lia.
From Verif Require Import PyBase PyFacts StarBlockModel ValidateModel TreeModel LexModel LexSpec LexProofs5 PropertiesLex DrelModel PhraseModel PhraseSpec SentenceModel SentenceSpec PropertiesSentence HeaderModel TransformModel TransformSpec TransformProofs.
Import ListNotations.
Open Scope nat_scope.

Lemma even_one k v : no_paren k = true -> even [(k, v)].
Proof. intros H. apply even_cons; [exact H|exact even_nil]. Qed.
Lemma even_operator n l r op s : operator n l r op s -> even op.
Proof.
  destruct 1 as [k v H|k v H|k v H|v w|k v H|k v H|v]; try reflexivity; apply even_one.
  - now destruct H as [-> | ->].
  - now destruct H as [-> | ->].
  - cbn in H. now repeat (destruct H as [<- | H]; [reflexivity|]).
  - cbn in H. now repeat (destruct H as [<- | H]; [reflexivity|]).
  - cbn in H. now repeat (destruct H as [<- | H]; [reflexivity|]).
Qed.
Lemma even_string s ts : a_string s ts -> even ts.
Proof. destruct 1 as [k s [-> | ->]|k p s [-> | ->]]; reflexivity. Qed.
Ltac ev := repeat first [assumption | exact even_nil | apply even_newlines; assumption | eapply even_operator; eassumption | eapply even_string; eassumption
  | apply even_paren | apply even_app | (apply even_cons; [reflexivity|])].
Lemma even_says_all :
  (forall n c ts, says n c ts -> even ts) /\ (forall nl l ts, says_all nl l ts -> even ts) /\ (forall l ts, says_entries l ts -> even ts)
  /\ (forall i ts, says_item i ts -> even ts) /\ (forall o ts, says_opt o ts -> even ts) /\ (forall l ts, says_items l ts -> even ts).
Proof.
  apply says_mut; intros; try (now ev).
  - match goal with H : In _ _ |- _ => cbn in H; repeat (destruct H as [<- | H]; [ev|]); destruct H end.
  - match goal with H : In _ _ |- _ => cbn in H; repeat (destruct H as [<- | H]; [ev|]); destruct H end.
Qed.
Lemma even_says n c ts : says n c ts -> even ts. Proof. apply even_says_all. Qed.
Lemma even_all nl l ts : says_all nl l ts -> even ts. Proof. apply even_says_all. Qed.
Ltac ev2 := repeat first [assumption | exact even_nil | apply even_newlines; assumption | eapply even_says; eassumption | eapply even_all; eassumption
  | apply even_paren | apply even_app | (apply even_cons; [reflexivity|])].
Lemma even_dots l ts : dots_say l ts -> even ts.
Proof. induction 1; ev2. Qed.
Lemma even_small m ts : small_says m ts -> even ts.
Proof.
  destruct 1 as [l ts H|k v l r tl tr K H1 H2|cat l v w ts H|v e te H|v|v]; ev2.
  - destruct K as [-> | ->]; ev2.
  - eapply even_dots; eassumption.
Qed.
Lemma even_smalls l ts : smalls_say l ts -> even ts.
Proof. induction 1; [eapply even_small; eassumption|]. apply even_app; [eapply even_small; eassumption|]. ev2. Qed.
Lemma even_end e : line_end e -> even e.
Proof. destruct 1; ev2. Qed.
Lemma even_ids l ts : ids_say l ts -> even ts. Proof. induction 1; ev2. Qed.
Lemma even_for l ts : for_ids l ts -> even ts.
Proof. destruct 1; [eapply even_ids; eassumption|]. apply even_cons; [reflexivity|]. apply even_app; [eapply even_ids; eassumption|]. ev2. Qed.
Lemma even_args l ts : args_say l ts -> even ts. Proof. induction 1; ev2. Qed.
Lemma even_tail i op x ts : loop_tail i op x ts -> even ts.
Proof. destruct 1 as [|i v|i k op x v H]; try reflexivity. cbn in H. repeat (destruct H as [<- | H]; [ev2|]). destruct H. Qed.
Lemma even_states_all b :
  (forall o c ts, states b o c ts -> even ts) /\ (forall p l els o ts, tail_says b p l els o ts -> even ts)
  /\ (forall o l ts, suite b o l ts -> even ts) /\ (forall l ts, all_state b l ts -> even ts).
Proof.
  apply states_mut; intros; try (now ev2).
  - apply even_app; [eapply even_smalls; eassumption|now apply even_end].
  - apply even_cons; [reflexivity|]. apply even_app; [eapply even_for; eassumption|ev2].
  - do 4 (apply even_cons; [reflexivity|]). apply even_app; [eapply even_tail; eassumption|ev2].
  - do 2 (apply even_cons; [reflexivity|]). apply even_paren; [eapply even_args; eassumption|ev2].
Qed.
Theorem method_even l ts : method ts = Ret l -> opened ts = closed ts.
Proof.
  intros E. apply C119_sound in E. destruct E as (n & t & N & A & ->). apply even_app; [now apply even_newlines|].
  eapply even_states_all; eassumption.
Qed.

(** ** One method *)
Lemma parse_ret st s l st' : s_depth st = 0 -> parse st s = Ret (l, st') -> stands_for s l /\ s_depth st' = 0.
Proof.
  intros D E. unfold parse in E. destruct (lex st s) as [[ts st1]|] eqn:L; [|discriminate]. cbn [obind fst snd] in E.
  destruct (method ts) as [l1|] eqn:M; [|discriminate]. cbn [obind] in E. injection E as <- <-. pose proof (method_even _ _ M) as Ev.
  pose proof (C100_balance _ _ _ _ L) as B. split; [|lia]. exists ts, (s_depth st1). split; [|exact M]. rewrite <- D. apply C99_exact. now exists st1.
Qed.
Lemma parse_stands st s l : s_depth st = 0 -> stands_for s l -> exists st', parse st s = Ret (l, st') /\ s_depth st' = 0.
Proof.
  intros D (ts & d & R & M). rewrite <- D in R. apply C99_exact in R as (st' & L & Dd).
  assert (parse st s = Ret (l, st')) as E by (unfold parse; rewrite L; cbn [obind fst snd]; rewrite M; reflexivity).
  exists st'. split; [exact E|]. now apply parse_ret in E.
Qed.
Lemma parse_raise st s x l : s_depth st = 0 -> parse st s = Raise x -> ~ stands_for s l.
Proof. intros D E H. destruct (parse_stands st s l D H) as (st' & E' & _). congruence. Qed.
Lemma is_method_fun s l l' : is_method s l -> is_method s l' -> l = l'.
Proof.
  intros H H'. apply is_method_text in H, H'. destruct (parse_stands fresh _ _ eq_refl H) as (a & A & _), (parse_stands fresh _ _ eq_refl H') as (b & B & _). congruence.
Qed.

Lemma veq_some p t : veq_text (Some p) t = true <-> p = VStr t.
Proof.
  unfold veq_text. split; [|intros ->; apply str_eqb_refl]. destruct p; try discriminate. destruct (str_eqb_spec s t) as [-> | _]; [reflexivity|discriminate].
Qed.
Section Methods.
  Context (make : str -> bool -> list cs -> outcome str).
  (** All methods of a definition: what comes out does not depend on the lexer. *)
  Lemma methods_spec k cat l : forall st, s_depth st = 0 ->
    match methods make k cat st l with
    | Ret (ts, st') => translations (make k cat) l ts /\ s_depth st' = 0
    | Raise x => stopped (make k cat) l x
    end.
  Proof.
    induction l as [|[p x] r IH]; intros st D; [split; [constructor|exact D]|]. cbn [methods].
    destruct (veq_text (Some p) evaluation) eqn:V.
    - apply veq_some in V. subst p. destruct x as [s| | | | |]; try (apply stopped_text; discriminate).
      destruct (parse st (method_text s)) as [[a st1]|e] eqn:P.
      + apply parse_ret in P as [Sf D1]; [|exact D]. apply is_method_text in Sf. destruct (make k cat a) as [t|e] eqn:M; [|eapply stopped_make; eassumption].
        cbn [obind]. specialize (IH st1 D1). destruct (methods make k cat st1 r) as [[ts st']|e]; cbn [obind fst snd].
        * destruct IH as [T D']. split; [|exact D']. eapply translations_good; eassumption.
        * eapply stopped_good; eassumption.
      + assert (forall l, ~ is_method s l) as NM by (intros l H; apply is_method_text in H; exact (parse_raise _ _ _ l D P H)).
        specialize (IH (reset st) eq_refl). destruct (methods make k cat (reset st) r) as [[ts st']|e2].
        * destruct IH as [T D']. split; [|exact D']. now apply translations_bad.
        * now apply stopped_bad.
    - assert (p <> VStr (u "Evaluation")) as NE by (intros ->; assert (veq_text (Some (VStr (u "Evaluation"))) evaluation = true) as W by reflexivity; congruence).
      specialize (IH st D). destruct (methods make k cat st r) as [[ts st']|e].
      + destruct IH as [T D']. split; [|exact D']. now apply translations_other.
      + now apply stopped_other.
  Qed.
End Methods.
(** The translations are determined, and exclude a stop. *)
Ltac bad := match goal with H : VStr _ <> VStr _ |- _ => exfalso; apply H; reflexivity end.
Lemma translations_fun make l ts : translations make l ts -> forall ts', translations make l ts' -> ts = ts'.
Proof.
  induction 1 as [|p x r ts N T IH|s r ts N T IH|s a t r ts M E T IH]; intros ts' T'.
  - now inversion T'.
  - inversion T' as [|p1 x1 r1 ts1 N1 T1|s1 r1 ts1 N1 T1|s1 a1 t1 r1 ts1 M1 E1 T1]; subst; try bad; try congruence. now apply IH.
  - inversion T' as [|p1 x1 r1 ts1 N1 T1|s1 r1 ts1 N1 T1|s1 a1 t1 r1 ts1 M1 E1 T1]; subst; try bad; try congruence; [now apply IH|now elim (N a1)].
  - inversion T' as [|p1 x1 r1 ts1 N1 T1|s1 r1 ts1 N1 T1|s1 a1 t1 r1 ts1 M1 E1 T1]; subst; try bad; try congruence; [now elim (N1 a)|].
    rewrite (is_method_fun _ _ _ M1 M) in E1. rewrite E in E1. injection E1 as <-. f_equal. now apply IH.
Qed.
Lemma translations_stopped make l ts : translations make l ts -> forall e, ~ stopped make l e.
Proof.
  induction 1 as [|p x r ts N T IH|s r ts N T IH|s a t r ts M E T IH]; intros e Q; inversion Q as [x1 r1 N1|s1 a1 e1 r1 M1 E1|p1 x1 r1 e1 N1 Q1|s1 r1 e1 N1 Q1|s1 a1 t1 r1 e1 M1 E1 Q1]; subst; try bad; try congruence; try (now apply (IH e)); try (now elim (N a1)); try (now elim (N1 a)); try (now elim (N1 s));
    rewrite (is_method_fun _ _ _ M1 M) in E1; congruence.
Qed.
