(** Proofs about the translation of the methods of a dictionary. *)
From Coq Require Import String Ascii List NArith PeanoNat Bool Lia.
From Verif Require Import PyBase PyFacts StarBlockModel ValidateModel TreeModel LexModel LexSpec LexProofs5 PropertiesLex DrelModel PhraseModel PhraseSpec SentenceModel SentenceSpec PropertiesSentence HeaderModel TransformModel TransformSpec.
Import ListNotations.
Open Scope nat_scope.

(** ** Lines *)
Lemma is_break_spec c : is_break c = true <-> break c.
Proof.
  unfold is_break, break. rewrite existsb_exists. split.
  - intros (x & I & E). apply N.eqb_eq in E. subst x. cbn in I. repeat (destruct I as [<- | I]; [lia|]). destruct I.
  - intros H. exists c. split; [|apply N.eqb_refl]. cbn.
    assert (c = 10 \/ c = 11 \/ c = 12 \/ c = 13 \/ c = 28 \/ c = 29 \/ c = 30 \/ c = 0x85 \/ c = 0x2028 \/ c = 0x2029)%N as J by lia.
    repeat (destruct J as [-> | J]; [tauto|]). subst. tauto.
Qed.
Lemma is_break_false c : is_break c = false <-> ~ break c.
Proof. rewrite <- is_break_spec. destruct (is_break c); intuition congruence. Qed.

Lemma splitlines_nil s : splitlines s = [] <-> s = [].
Proof.
  split; [|now intros ->]. destruct s as [|c r]; [reflexivity|]. cbn [splitlines]. destruct (is_break c); [discriminate|]. destruct (splitlines r); discriminate.
Qed.
Lemma join_cons l t : t <> [] -> join_nl (l :: t) = l ++ 10%N :: join_nl t.
Proof. destruct t; [congruence|reflexivity]. Qed.
Lemma join_char c l t : join_nl ((c :: l) :: t) = c :: join_nl (l :: t).
Proof. destruct t; reflexivity. Qed.
Lemma last_cons (c : N) r : r <> [] -> last (c :: r) 0%N = last r 0%N.
Proof. destruct r; [congruence|reflexivity]. Qed.

(** The text with all ends of lines made newlines, and whether the last is lost. *)
Lemma method_text_unified n : forall s, length s <= n -> s <> [] ->
  exists x, unified s x /\ ((break (last s 0%N) /\ method_text s = x) \/ (~ break (last s 0%N) /\ method_text s = x ++ [10%N])).
Proof.
  induction n as [|n IH]; intros s L NE; [destruct s; [congruence|cbn in L; lia]|].
  destruct s as [|c r]; [congruence|]. cbn [length] in L. unfold method_text, function_text in *. cbn [splitlines].
  destruct (is_break c) eqn:B.
  - assert (break c) as Bc by (now apply is_break_spec).
    destruct r as [|c2 r2].
    + exists [10%N]. split; [apply unified_break; [exact Bc|discriminate|constructor]|]. left. split; [exact Bc|reflexivity].
    + destruct ((c =? 13)%N && (c2 =? 10)%N)%bool eqn:E.
      * apply andb_true_iff in E as [E1 E2]. apply N.eqb_eq in E1, E2. subst c c2.
        destruct r2 as [|c3 r3].
        -- exists [10%N]. split; [apply unified_crlf; constructor|]. left. split; [cbn; unfold break; lia|reflexivity].
        -- destruct (IH (c3 :: r3)) as (x & U & H); [cbn in *; lia|discriminate|]. exists (10%N :: x). split; [now apply unified_crlf|].
           rewrite !last_cons by discriminate. rewrite join_cons by (rewrite splitlines_nil; discriminate).
           destruct H as [[H Q] | [H Q]]; [left|right]; (split; [exact H|]); cbn [app]; f_equal; exact Q.
      * destruct (IH (c2 :: r2)) as (x & U & H); [cbn in *; lia|discriminate|]. exists (10%N :: x). split.
        -- apply unified_break; [exact Bc| |exact U]. intros -> [= ->]. discriminate E.
        -- rewrite last_cons by discriminate. rewrite join_cons by (rewrite splitlines_nil; discriminate).
           destruct H as [[H Q] | [H Q]]; [left|right]; (split; [exact H|]); cbn [app]; f_equal; exact Q.
  - assert (~ break c) as Bc by (now apply is_break_false).
    destruct r as [|c2 r2].
    + exists [c]. split; [apply unified_char; [exact Bc|constructor]|]. right. split; [exact Bc|reflexivity].
    + destruct (IH (c2 :: r2)) as (x & U & H); [cbn in *; lia|discriminate|]. exists (c :: x). split; [now apply unified_char|].
      rewrite last_cons by discriminate. destruct (splitlines (c2 :: r2)) as [|l t] eqn:E; [apply splitlines_nil in E; discriminate|]. rewrite join_char.
      destruct H as [[H Q] | [H Q]]; [left|right]; (split; [exact H|]); cbn [app]; f_equal; exact Q.
Qed.
Lemma parsed_method_text s : parsed_text s (method_text s).
Proof.
  destruct s as [|c r].
  - exists []. split; [constructor|]. right. split; [now left|reflexivity].
  - destruct (method_text_unified _ (c :: r) (le_n _)) as (x & U & H); [discriminate|]. exists x. split; [exact U|].
    destruct H as [[H Q] | [H Q]]; [left|right]; (repeat split; try assumption; try discriminate). now right.
Qed.
Lemma unified_fun s t : unified s t -> forall t', unified s t' -> t = t'.
Proof.
  induction 1 as [|c s t B U IH|s t U IH|c s t B H U IH]; intros t' U'; inversion U' as [|c' s' x' B' V|s' x' V|c' s' x' B' H' V]; subst; try reflexivity; try (f_equal; now apply IH).
  - elim B. unfold break; lia.
  - contradiction.
  - elim B'. unfold break; lia.
  - now elim (H' eq_refl).
  - contradiction.
  - now elim (H eq_refl).
Qed.
Lemma parsed_text_fun s t t' : parsed_text s t -> parsed_text s t' -> t = t'.
Proof.
  intros (x & U & H) (x' & U' & H'). rewrite <- (unified_fun _ _ U _ U') in *.
  destruct H as [(N & B & ->) | (B & ->)], H' as [(N' & B' & ->) | (B' & ->)]; try reflexivity; exfalso; intuition.
Qed.
Lemma is_method_text s l : is_method s l <-> stands_for (method_text s) l.
Proof.
  split; [|intros H; exists (method_text s); split; [apply parsed_method_text|exact H]].
  intros (t & P & H). now rewrite (parsed_text_fun _ _ _ (parsed_method_text s) P).
Qed.

(** ** Parentheses are closed at the end of a method *)
Definition even (ts : list (kind * str)) : Prop := opened ts = closed ts.
Lemma opened_app a b : opened (a ++ b) = opened a + opened b.
Proof. unfold opened, count. now rewrite filter_app, app_length. Qed.
Lemma closed_app a b : closed (a ++ b) = closed a + closed b.
Proof. unfold closed, count. now rewrite filter_app, app_length. Qed.
Lemma even_app a b : even a -> even b -> even (a ++ b).
Proof. unfold even. rewrite opened_app, closed_app. lia. Qed.
Definition no_paren (k : kind) : bool := match k with OPEN_PAREN | CLOSE_PAREN => false | _ => true end.
Lemma even_cons k v ts : no_paren k = true -> even ts -> even ((k, v) :: ts).
Proof. intros H E. change ((k, v) :: ts) with ([(k, v)] ++ ts). apply even_app; [|exact E]. destruct k; try discriminate; reflexivity. Qed.
Lemma even_nil : even []. Proof. reflexivity. Qed.
Lemma even_paren v w ts r : even ts -> even r -> even ((OPEN_PAREN, v) :: ts ++ (CLOSE_PAREN, w) :: r).
Proof.
  intros E R. unfold even in *. change ((OPEN_PAREN, v) :: ts ++ (CLOSE_PAREN, w) :: r) with ([(OPEN_PAREN, v)] ++ ts ++ [(CLOSE_PAREN, w)] ++ r).
  rewrite !opened_app, !closed_app. change (opened [(OPEN_PAREN, v)]) with 1. change (closed [(OPEN_PAREN, v)]) with 0. change (opened [(CLOSE_PAREN, w)]) with 0. change (closed [(CLOSE_PAREN, w)]) with 1. lia.
Qed.
Lemma even_newlines n : newlines n -> even n.
Proof. induction 1 as [|[k v] n H N IH]; [exact even_nil|]. cbn in H. subst k. now apply even_cons. Qed.
