(** The reader of python expressions: more fuel changes nothing, so a text has at
    most one reading; how each form of expression is read. *)
From Coq Require Import String Ascii List NArith Bool Lia.
From Verif Require Import PyBase PyFacts DrelModel DrelSpec.
Import ListNotations.
Open Scope list_scope.
Open Scope nat_scope.

Lemma one_some x f r : one x f = Some r -> exists t q, x = Some ([t], q) /\ f t q = Some r.
Proof. destruct x as [[[|t [|]] q]|]; cbn [one]; intros H; try discriminate. eauto. Qed.
Lemma seq_some x f r : seq x f = Some r -> exists l q, x = Some (l, q) /\ f l q = Some r.
Proof. destruct x as [[l q]|]; cbn [seq]; intros H; try discriminate. eauto. Qed.

Definition more (f g : goal -> list tok -> answer) : Prop := forall a ts r, f a ts = Some r -> g a ts = Some r.
Lemma one_mono (x y : answer) f g r :
  (forall q, x = Some q -> y = Some q) -> (forall t q z, f t q = Some z -> g t q = Some z) ->
  one x f = Some r -> one y g = Some r.
Proof. intros A B H. apply one_some in H as (t & q & E & F). rewrite (A _ E). cbn [one]. auto. Qed.
Lemma seq_mono (x y : answer) f g r :
  (forall q, x = Some q -> y = Some q) -> (forall t q z, f t q = Some z -> g t q = Some z) ->
  seq x f = Some r -> seq y g = Some r.
Proof. intros A B H. apply seq_some in H as (t & q & E & F). rewrite (A _ E). cbn [seq]. auto. Qed.
Lemma maybe_mono p q ts f g r :
  more p q -> (forall t w z, f t w = Some z -> g t w = Some z) -> maybe p ts f = Some r -> maybe q ts g = Some r.
Proof.
  intros M B. unfold maybe. destruct ts as [|t w]; [discriminate|]. destruct (stops t); [apply B|].
  apply one_mono; [intros; apply M; assumption|]. intros; apply B; assumption.
Qed.
Lemma item_mono p q ts f g r :
  more p q -> (forall t w z, f t w = Some z -> g t w = Some z) -> item p ts f = Some r -> item q ts g = Some r.
Proof.
  intros M B. unfold item. apply maybe_mono; [exact M|]. intros a [|t w] z; [discriminate|].
  destruct (is_op ":" t).
  - apply maybe_mono; [exact M|]. intros b [|t2 w2] z2; [discriminate|].
    destruct (is_op ":" t2); [apply maybe_mono; [exact M|]; intros; apply B; assumption|apply B].
  - destruct a; [apply B|discriminate].
Qed.

Lemma step_mono p q_ : more p q_ -> more (step p) (step q_).
Proof.
  intros M g ts r H. unfold step in *.
  Ltac go1 M :=
    match goal with
    | H : one _ _ = Some ?r |- one _ _ = Some ?r => revert H; apply one_mono; [intros; apply M; assumption|]; cbv beta; intros
    | H : seq _ _ = Some ?r |- seq _ _ = Some ?r => revert H; apply seq_mono; [intros; apply M; assumption|]; cbv beta; intros
    end.
  destruct g as [k|k t|t chain|close acc|acc|acc].
  - assert (D : (if Nat.ltb 10 k then None else one (p (GE (S k)) ts) (fun t r => p (GL k t) r)) = Some r ->
               (if Nat.ltb 10 k then None else one (q_ (GE (S k)) ts) (fun t r => q_ (GL k t) r)) = Some r).
    { destruct (Nat.ltb 10 k); [discriminate|]. intros X. go1 M. apply M; assumption. }
    destruct k as [|[|[|[|[|[|[|[|[|[|[|k]]]]]]]]]]]; try (exact (D H)).
    + destruct ts as [|[w|w|w|w|] q]; try (exact (D H)).
      destruct (str_eqb w (u "not")); [|exact (D H)]. go1 M. assumption.
    + destruct ts as [|[w|w|w|w|] q]; try (exact (D H)).
      destruct (str_eqb w (u "-") || str_eqb w (u "+")); [|exact (D H)]. go1 M. assumption.
    + destruct ts as [|t q]; [exact H|].
      assert (D2 :
        (if is_op "(" t then
              match q with
              | t2 :: r2 =>
                  if is_op ")" t2 then p (GL 10 (PTuple [])) r2
                  else one (p (GE 0) q) (fun x r3 =>
                    match r3 with
                    | t4 :: r4 =>
                        if is_op ")" t4 then p (GL 10 x) r4
                        else if is_op "," t4 then seq (p (GSeq (u ")") [x]) r4) (fun l r5 => p (GL 10 (PTuple l)) r5)
                        else None
                    | [] => None
                    end)
              | [] => None
              end
            else if is_op "[" t then seq (p (GSeq (u "]") []) q) (fun l r2 => p (GL 10 (PList l)) r2)
            else if is_op "{" t then seq (p (GDict []) q) (fun l r2 => p (GL 10 (PDict l)) r2)
            else None) = Some r ->
        (if is_op "(" t then
              match q with
              | t2 :: r2 =>
                  if is_op ")" t2 then q_ (GL 10 (PTuple [])) r2
                  else one (q_ (GE 0) q) (fun x r3 =>
                    match r3 with
                    | t4 :: r4 =>
                        if is_op ")" t4 then q_ (GL 10 x) r4
                        else if is_op "," t4 then seq (q_ (GSeq (u ")") [x]) r4) (fun l r5 => q_ (GL 10 (PTuple l)) r5)
                        else None
                    | [] => None
                    end)
              | [] => None
              end
            else if is_op "[" t then seq (q_ (GSeq (u "]") []) q) (fun l r2 => q_ (GL 10 (PList l)) r2)
            else if is_op "{" t then seq (q_ (GDict []) q) (fun l r2 => q_ (GL 10 (PDict l)) r2)
            else None) = Some r).
      { destruct (is_op "(" t).
        - destruct q as [|t2 q]; [discriminate|]. destruct (is_op ")" t2); [apply M|]. intros X. go1 M.
          match goal with |- match ?w with _ => _ end = _ => destruct w as [|t4 w4]; [discriminate|] end.
          destruct (is_op ")" t4); [apply M; assumption|]. destruct (is_op "," t4); [|discriminate]. go1 M. apply M; assumption.
        - destruct (is_op "[" t); [intros X; go1 M; apply M; assumption|].
          destruct (is_op "{" t); [intros X; go1 M; apply M; assumption|discriminate]. }
      destruct t as [w|w|w|w|]; try (exact (D2 H)).
      * destruct (keyword w); [discriminate|apply M; exact H].
      * destruct (py_number w); [apply M; exact H|discriminate].
      * apply M; exact H.
  - assert (D : match ts with
               | o :: q => match binop k o with
                           | Some op => one (p (GE (S k)) q) (fun t2 r2 => p (GL k (PBin op t t2)) r2)
                           | None => Some ([t], ts)
                           end
               | [] => Some ([t], ts)
               end = Some r ->
               match ts with
               | o :: q => match binop k o with
                           | Some op => one (q_ (GE (S k)) q) (fun t2 r2 => q_ (GL k (PBin op t t2)) r2)
                           | None => Some ([t], ts)
                           end
               | [] => Some ([t], ts)
               end = Some r).
    { destruct ts as [|o q]; [auto|]. destruct (binop k o); [|auto]. intros X. go1 M. apply M; assumption. }
    destruct k as [|[|[|[|[|[|[|[|[|[|[|k]]]]]]]]]]]; try (exact (D H)).
    + apply M; exact H.
    + destruct ts as [|o q]; [exact H|]. destruct (is_op "**" o); [|exact H]. go1 M. assumption.
    + destruct ts as [|o q]; [exact H|].
      destruct (is_op "." o). { destruct q as [|[w|w|w|w|] q]; try discriminate. destruct (keyword w); [discriminate|apply M; exact H]. }
      destruct (is_op "(" o). { go1 M. apply M; assumption. }
      destruct (is_op "[" o); [|exact H]. go1 M.
      match goal with |- match ?w with _ => _ end = _ => destruct w; [discriminate|apply M; assumption] end.
  - destruct (cmpop ts) as [[op q]|]; [|exact H]. go1 M. apply M; assumption.
  - destruct ts as [|t q]; [exact H|]. destruct (is_ops close t); [exact H|]. go1 M.
    match goal with |- match ?w with _ => _ end = _ => destruct w as [|t2 w2]; [discriminate|] end.
    destruct (is_op "," t2); [apply M; assumption|]. assumption.
  - destruct ts as [|t q]; [exact H|]. destruct (is_op "}" t); [exact H|]. go1 M.
    match goal with |- match ?w with _ => _ end = _ => destruct w as [|t2 w2]; [discriminate|] end.
    destruct (is_op ":" t2); [|discriminate]. go1 M.
    match goal with |- match ?w with _ => _ end = _ => destruct w as [|t3 w3]; [discriminate|] end.
    destruct (is_op "," t3); [apply M; assumption|]. assumption.
  - destruct ts as [|t q]; [exact H|]. destruct (is_op "]" t); [exact H|].
    eapply item_mono; [exact M| |exact H]. intros x [|t2 w2] z; [discriminate|].
    destruct (is_op "," t2); [apply M|auto].
Qed.
Lemma rd_S n : more (rd n) (rd (S n)).
Proof.
  induction n as [|n IH]; [intros a ts r H; discriminate H|]. exact (step_mono _ _ IH).
Qed.
Lemma rd_le n m g ts r : n <= m -> rd n g ts = Some r -> rd m g ts = Some r.
Proof. induction 1; [auto|]. intros H1. apply rd_S, IHle, H1. Qed.
Lemma reads_det g ts r1 r2 : reads g ts r1 -> reads g ts r2 -> r1 = r2.
Proof.
  intros [n A] [m B]. apply (rd_le n (n + m)) in A; [|lia]. apply (rd_le m (n + m)) in B; [|lia]. congruence.
Qed.
