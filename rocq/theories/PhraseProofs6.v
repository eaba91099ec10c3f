(** Rows of tokens that are no expression. *)
From Coq Require Import String Ascii List NArith PeanoNat Bool Lia.
From Verif Require Import PyBase LexModel DrelModel PhraseModel PhraseSpec PhraseProofs PhraseProofs2 PhraseProofs3 PhraseProofs4 PhraseProofs5.
Import ListNotations.
Open Scope nat_scope.

Lemma left_over c ts t r : says 0 c ts -> stops_k 0 (fst t) = true -> expression (ts ++ t :: r) = Raise SyntaxErr.
Proof.
  intros H St. unfold expression. rewrite (found_stop 0 c ts OrTest (t :: r) _ (proj1 says_found _ _ _ H) eq_refl St); [reflexivity|].
  unfold enough. rewrite app_length. lia.
Qed.

Lemma chained a b op op2 s s2 ta tb tc : says 4 a ta -> says 4 b tb -> operator 3 4 4 op s -> operator 3 4 4 op2 s2 ->
  expression (ta ++ op ++ tb ++ op2 ++ tc) = Raise SyntaxErr.
Proof.
  intros A B O O2.
  assert (forall o x, operator 3 4 4 o x -> forall q, comp_op (o ++ q) = Ret (Some (x, q)) /\ stops 4 (o ++ q) /\ exists k v q', o ++ q = (k, v) :: q' /\ left_op OrTest (k, v) = None /\ left_op AndTest (k, v) = None) as C.
  { intros o x Ho q. inversion Ho as [| |k v H| | | |]; subst.
    - cbn [In] in H. repeat match goal with HH : _ \/ _ |- _ => destruct HH as [HH|HH] | HH : False |- _ => destruct HH end; subst;
        (split; [reflexivity|]); (split; [reflexivity|]); do 3 eexists; (split; [reflexivity|]); split; reflexivity.
    - split; [reflexivity|]. split; [reflexivity|]. do 3 eexists. split; [reflexivity|]. split; reflexivity. }
  destruct (C _ _ O (tb ++ op2 ++ tc)) as (C1 & C2 & _). destruct (C _ _ O2 tc) as (_ & D2 & k & v & q & D3 & D4 & D5).
  apply (proj1 says_found) in A, B. unfold expression.
  assert (exists g, enough (ta ++ op ++ tb ++ op2 ++ tc) = S (S (S (S (S g)))) /\ 14 * length ta + 6 <= g /\ 14 * length tb + 6 <= g) as (g & -> & L1 & L2).
  { unfold enough. exists (9 + 14 * length (ta ++ op ++ tb ++ op2 ++ tc)). rewrite !app_length. lia. }
  assert (p_rule (S (S (S g))) NotTest (ta ++ op ++ tb ++ op2 ++ tc) = Ret (XBin s a b, op2 ++ tc)) as E.
  { rewrite p_rule_S. assert (p_rule (S (S g)) Comparison (ta ++ op ++ tb ++ op2 ++ tc) = Ret (XBin s a b, op2 ++ tc)) as E.
    { rewrite p_rule_S. rewrite (found_stop 4 _ _ AExpression _ (S g) A eq_refl C2) by lia. cbn [obind fst snd]. rewrite C1. cbn [obind].
      rewrite (found_stop 4 _ _ AExpression _ (S g) B eq_refl D2) by lia. reflexivity. }
    pose proof (opens_app 4 ta (op ++ tb ++ op2 ++ tc) (proj1 A)) as Op.
    destruct (ta ++ op ++ tb ++ op2 ++ tc) as [|[k' v'] r']; [destruct Op|]. destruct k'; try exact E. discriminate Op. }
  rewrite p_rule_S, p_rule_S, E. cbn [obind fst snd]. rewrite D3, p_more_S, D5. cbn [obind fst snd]. rewrite p_more_S, D4. reflexivity.
Qed.
