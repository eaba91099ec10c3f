(** What the tokens say is found: tokens with which nothing goes on. *)
From Coq Require Import String Ascii List NArith PeanoNat Bool Lia.
From Verif Require Import PyBase LexModel DrelModel PhraseModel PhraseSpec PhraseProofs PhraseProofs2.
Import ListNotations.
Open Scope nat_scope.

(** How closely the operator that a token begins binds. *)
Definition goes_on (k : kind) : option nat :=
  match k with
  | OR | BADOR => Some 0
  | AND | BADAND => Some 1
  | GTE | LTE | NEQ | ISEQUAL | IN_ | NOT => Some 3
  | POWER => Some 7
  | REAL => Some 8
  | OPEN_PAREN => Some 9
  | LIT c => if existsb (N.eqb c) (u "<>") then Some 3
             else if existsb (N.eqb c) (u "+-") then Some 4
             else if existsb (N.eqb c) (u "*/^&|") then Some 5
             else if existsb (N.eqb c) (u ".[") then Some 8
             else None
  | _ => None
  end.
Definition stops_k (n : nat) (k : kind) : bool := match goes_on k with Some m => m <? n | None => true end.
Definition stops (n : nat) (ts : list tok) : Prop := match ts with [] => True | t :: _ => stops_k n (fst t) = true end.

Lemma stops_k_le n m k : n <= m -> stops_k n k = true -> stops_k m k = true.
Proof. unfold stops_k. destruct (goes_on k) as [x|]; [|auto]. rewrite !Nat.ltb_lt. lia. Qed.
Lemma stops_le n m ts : n <= m -> stops n ts -> stops m ts.
Proof. intros L. destruct ts as [|[k v] ts]; [auto|]. now apply stops_k_le. Qed.

Lemma lit_cases c (s : str) : existsb (N.eqb c) s = true -> In c s.
Proof. apply in_char. Qed.

Lemma stops_left l t r : stops (num l) (t :: r) -> left_op l t = None.
Proof.
  destruct t as [k v]. unfold stops, stops_k. cbn [fst].
  destruct (left_op l (k, v)) as [s|] eqn:O; [|auto]. intros H. exfalso.
  destruct (left_op_operator _ _ _ O) as (_ & X).
  destruct l; cbn [num tighter] in X; inversion X as [k0 v0 H0|k0 v0 H0|k0 v0 H0| |k0 v0 H0|k0 v0 H0|]; subst;
    repeat match goal with
    | HH : _ \/ _ |- _ => destruct HH as [HH|HH]
    | HH : In _ (_ :: _) |- _ => cbn [In] in HH
    | HH : False |- _ => destruct HH
    end; subst; vm_compute in H; discriminate H.
Qed.
Lemma stops_comp ts : stops 3 ts -> comp_op ts = Ret None.
Proof.
  destruct ts as [|[k v] r]; [auto|]. unfold stops, stops_k. cbn [fst]. destruct k; cbn [goes_on comp_op]; auto; try discriminate.
  destruct (existsb (N.eqb c) (u "<>")); [discriminate|auto].
Qed.
Lemma stops_power {A} ts (x y : A) (g : list tok -> A) : stops 7 ts ->
  (match ts with (POWER, _) :: r => g r | _ => y end) = y.
Proof. destruct ts as [|[k v] r]; [auto|]. destruct k; auto. intros H. vm_compute in H. discriminate H. Qed.
Lemma stops_post f acc ts : stops 8 ts -> p_post (S f) acc ts = Ret (acc, ts).
Proof.
  rewrite p_post_S. destruct ts as [|[k v] r]; [auto|]. unfold stops. cbn [fst]. destruct k as [ | | | | | | | | | | | | | | | | | | | | | | | | | | | | | | | | | | | | | | | | | | | | | |c]; auto.
  - intros H. vm_compute in H. discriminate H.
  - destruct (N.eqb_spec c 46) as [->|_]; [intros H; vm_compute in H; discriminate H|].
    destruct (N.eqb_spec c 91) as [->|_]; [intros H; vm_compute in H; discriminate H|auto].
Qed.
Lemma stops_call ts : stops 9 ts -> at_kind OPEN_PAREN ts = None.
Proof. destruct ts as [|[k v] r]; [auto|]. destruct k; auto. intros H. vm_compute in H. discriminate H. Qed.
Lemma stops_more f l acc ts : stops (num l) ts -> p_more (S f) l acc ts = Ret (acc, ts).
Proof. rewrite p_more_S. destruct ts as [|t r]; [auto|]. intros H. now rewrite (stops_left _ _ _ H). Qed.

(** ** The first token *)
Definition opens_k (n : nat) (k : kind) : bool :=
  match k with
  | ID | ITEM_TAG | SHORTSTRING | LONGSTRING | STRPREFIX | INTEGER | HEXINT | OCTINT | BININT | REAL | IMAGINARY | OPEN_PAREN => true
  | NOT => n <=? 2
  | LIT c => existsb (N.eqb c) [96; 91; 123]%N || existsb (N.eqb c) [43; 45]%N && (n <=? 6)
  | _ => false
  end.
Definition opens (n : nat) (ts : list tok) : Prop := match ts with [] => False | t :: _ => opens_k n (fst t) = true end.
Lemma opens_k_le n m k : n <= m -> opens_k m k = true -> opens_k n k = true.
Proof.
  intros L. destruct k; cbn [opens_k]; auto.
  - rewrite !Nat.leb_le. lia.
  - rewrite !orb_true_iff, !andb_true_iff, !Nat.leb_le. intros [H|[H1 H2]]; [now left|right; split; [auto|lia]].
Qed.
Lemma opens_app n ts r : opens n ts -> opens n (ts ++ r).
Proof. destruct ts as [|t ts]; [intros []|auto]. Qed.
Lemma opens_le n m ts : n <= m -> opens m ts -> opens n ts.
Proof. destruct ts as [|t ts]; [auto|]. intros L. cbn. now apply opens_k_le. Qed.
Lemma operator_levels n l r op s : operator n l r op s -> n <= l /\ n <= r + 1 /\ l <= 8 /\ r <= 8 /\ op <> [].
Proof. destruct 1; repeat split; try lia; discriminate. Qed.
Lemma says_opens n c ts : says n c ts -> opens n ts.
Proof.
  induction 1 using says_ind2 with (P0 := fun _ _ ts => True) (P1 := fun _ ts => True) (P2 := fun _ ts => True) (P3 := fun _ ts => True) (P4 := fun _ ts => True);
  try exact I; cbn [app]; try reflexivity;
  try (apply opens_app; assumption).
  - apply (opens_le n (S n)); [lia|assumption].
  - apply opens_app. apply (opens_le n l); [apply (operator_levels _ _ _ _ _ H)|assumption].
  - cbn [In] in H. destruct H as [<-|[<-|[]]]; reflexivity.
  - unfold number_kinds in H. cbn [In] in H. repeat (destruct H as [<-|H]; [reflexivity|]). destruct H.
  - destruct H as [k s [-> | ->]|k p s _]; reflexivity.
Qed.
Lemma opens_not_at n ts k : opens n ts -> opens_k 0 k = false -> at_kind k ts = None.
Proof.
  intros O F. destruct ts as [|[k' v] r]; [destruct O|]. cbn in O. cbn [at_kind].
  destruct (kind_is k k') eqn:E; [|auto]. apply kind_is_eq in E. subst.
  rewrite (opens_k_le 0 n k (Nat.le_0_l n) O) in F. discriminate.
Qed.
Lemma opens_skip n ts : opens n ts -> skip_nl ts = ts.
Proof. destruct ts as [|[k v] r]; [intros []|]. destruct k; cbn; auto. discriminate. Qed.
Lemma skip_newlines n ts : newlines n -> skip_nl (n ++ ts) = skip_nl ts.
Proof. induction 1 as [|[k v] n E _ IH]; [auto|]. cbn [fst] in E. subst. exact IH. Qed.
