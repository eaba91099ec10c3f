(** More fuel does not change what the parser of expressions finds. *)
From Coq Require Import String Ascii List NArith PeanoNat Bool Lia.
From Verif Require Import PyBase LexModel DrelModel PhraseModel PhraseSpec.
Import ListNotations.
Open Scope nat_scope.

Definition below {A} (a b : outcome A) : Prop := a = Raise OutOfFuel \/ a = b.
Lemma below_refl {A} (a : outcome A) : below a a. Proof. now right. Qed.
Lemma below_bind {A B} (a a' : outcome A) (k k' : A -> outcome B) :
  below a a' -> (forall x, below (k x) (k' x)) -> below (obind a k) (obind a' k').
Proof.
  intros [-> | ->] H; [now left|]. destruct a' as [x|e]; [exact (H x)|now right].
Qed.
Lemma below_out {A} (b : outcome A) : below (Raise OutOfFuel) b. Proof. now left. Qed.

Definition mono_at (f : nat) : Prop :=
  (forall l ts, below (p_rule f l ts) (p_rule (S f) l ts)) /\
  (forall l acc ts, below (p_more f l acc ts) (p_more (S f) l acc ts)) /\
  (forall acc ts, below (p_post f acc ts) (p_post (S f) acc ts)) /\
  (forall ts, below (p_atom f ts) (p_atom (S f) ts)) /\
  (forall nl ts, below (p_list f nl ts) (p_list (S f) nl ts)) /\
  (forall ts, below (p_table f ts) (p_table (S f) ts)) /\
  (forall ts, below (p_items f ts) (p_items (S f) ts)) /\
  (forall ts, below (p_item f ts) (p_item (S f) ts)) /\
  (forall a ts, below (p_slice f a ts) (p_slice (S f) a ts)).

Ltac mono_step :=
  match goal with
  | |- below (obind _ _) (obind _ _) => apply below_bind; [|intros ?]
  | |- below ?a ?a => apply below_refl
  | H : _ |- _ => apply H
  | |- below (match ?x with _ => _ end) _ => destruct x
  | |- below (if ?x then _ else _) _ => destruct x
  | |- below (let '(_, _) := ?x in _) _ => destruct x
  end.

Lemma p_rule_S f l ts : p_rule (S f) l ts =
      match l with
      | OrTest => obind (p_rule f AndTest ts) (fun x => p_more f OrTest (fst x) (snd x))
      | AndTest => obind (p_rule f NotTest ts) (fun x => p_more f AndTest (fst x) (snd x))
      | NotTest =>
          match ts with
          | (NOT, _) :: r => obind (p_rule f NotTest r) (fun x => Ret (pfst XNot x))
          | _ => p_rule f Comparison ts
          end
      | Comparison =>
          obind (p_rule f AExpression ts) (fun x =>
          obind (comp_op (snd x)) (fun o =>
          match o with
          | None => Ret x
          | Some (op, r) => obind (p_rule f AExpression r) (fun y => Ret (pfst (XBin op (fst x)) y))
          end))
      | AExpression => obind (p_rule f MExpression ts) (fun x => p_more f AExpression (fst x) (snd x))
      | MExpression => obind (p_rule f UExpression ts) (fun x => p_more f MExpression (fst x) (snd x))
      | UExpression =>
          match ts with
          | (LIT c, v) :: r =>
              if existsb (N.eqb c) (u "+-") then obind (p_rule f UExpression r) (fun x => Ret (pfst (XSign v) x))
              else p_rule f Power ts
          | _ => p_rule f Power ts
          end
      | Power =>
          obind (p_rule f Primary ts) (fun x =>
          match snd x with
          | (POWER, _) :: r => obind (p_rule f UExpression r) (fun y => Ret (pfst (XBin (u "**") (fst x)) y))
          | _ => Ret x
          end)
      | Primary => obind (p_atom f ts) (fun x => p_post f (fst x) (snd x))
      end.
Proof. reflexivity. Qed.
Definition tighter (l : rule) : rule :=
  match l with OrTest => AndTest | AndTest => NotTest | AExpression => MExpression | _ => UExpression end.
Lemma p_more_S f l acc ts : p_more (S f) l acc ts =
      match ts with
      | [] => Ret (acc, ts)
      | t :: r =>
          match left_op l t with
          | None => Ret (acc, ts)
          | Some op => obind (p_rule f (tighter l) r) (fun x => p_more f l (XBin op acc (fst x)) (snd x))
          end
      end.
Proof. reflexivity. Qed.
Lemma p_post_S f acc ts : p_post (S f) acc ts =
      match ts with
      | (REAL, v) :: r => p_post f (XAttr acc (tail v)) r
      | (LIT c, _) :: r =>
          if (c =? 46)%N then
            match r with
            | (ID, s) :: r2 => p_post f (XAttr acc s) r2
            | _ => Raise SyntaxErr
            end
          else if (c =? 91)%N then
            obind (p_items f r) (fun x =>
            obind (expect square_close (bracketed acc (fst x)) (snd x)) (fun y => p_post f (fst y) (snd y)))
          else Ret (acc, ts)
      | _ => Ret (acc, ts)
      end.
Proof. reflexivity. Qed.
Lemma p_atom_S f ts : p_atom (S f) ts =
      match ts with
      | (ID, s) :: r =>
          match at_kind OPEN_PAREN r with
          | None => Ret (XName s, r)
          | Some r2 =>
              match at_kind CLOSE_PAREN r2 with
              | Some r3 => Ret (XCall s [], r3)
              | None => obind (p_list f false r2) (fun x => expect CLOSE_PAREN (XCall s (fst x)) (snd x))
              end
          end
      | (ITEM_TAG, s) :: r => Ret (XTag s, r)
      | (OPEN_PAREN, _) :: r =>
          match at_kind CLOSE_PAREN r with
          | Some r2 => Ret (XGroup [], r2)
          | None => obind (p_list f true r) (fun x => expect CLOSE_PAREN (XGroup (fst x)) (snd x))
          end
      | (LIT c, _) :: r =>
          if (c =? 96)%N then
            obind (p_list f true r) (fun x => expect backquote (XConv (fst x)) (snd x))
          else if (c =? 91)%N then
            match at_kind square_close (skip_nl r) with
            | Some r2 => Ret (XList [], r2)
            | None => obind (p_list f true (skip_nl r)) (fun x => expect square_close (XList (fst x)) (skip_nl (snd x)))
            end
          else if (c =? 123)%N then
            match at_kind curly_close (skip_nl r) with
            | Some r2 => Ret (XTable [], r2)
            | None => obind (p_table f (skip_nl r)) (fun x => expect curly_close (XTable (fst x)) (skip_nl (snd x)))
            end
          else Raise SyntaxErr
      | _ => match literal ts with Some (v, r) => Ret (XLit v, r) | None => Raise SyntaxErr end
      end.
Proof. reflexivity. Qed.
Lemma p_list_S f nl ts : p_list (S f) nl ts =
      obind (p_rule f OrTest ts) (fun x =>
      match at_kind comma (snd x) with
      | None => Ret (pfst (fun e => [e]) x)
      | Some r => obind (p_list f nl (if nl then skip_nl r else r)) (fun y => Ret (pfst (cons (fst x)) y))
      end).
Proof. reflexivity. Qed.
Lemma p_table_S f ts : p_table (S f) ts =
      match string_literal ts with
      | None => Raise SyntaxErr
      | Some (k, r) =>
          match at_kind colon r with
          | None => Raise SyntaxErr
          | Some r2 =>
              obind (p_rule f OrTest r2) (fun x =>
              match at_kind comma (snd x) with
              | None => Ret (pfst (fun e => [(k, e)]) x)
              | Some r3 => obind (p_table f (skip_nl r3)) (fun y => Ret (pfst (cons (k, fst x)) y))
              end)
          end
      end.
Proof. reflexivity. Qed.
Lemma p_items_S f ts : p_items (S f) ts =
      obind (p_item f ts) (fun x =>
      match at_kind comma (snd x) with
      | None => Ret (pfst (fun e => [e]) x)
      | Some r => obind (p_items f r) (fun y => Ret (pfst (cons (fst x)) y))
      end).
Proof. reflexivity. Qed.
Lemma p_item_S f ts : p_item (S f) ts =
      match at_kind colon ts with
      | Some r => p_slice f None r
      | None =>
          obind (p_rule f OrTest ts) (fun x =>
          match at_kind colon (snd x) with
          | None => Ret (pfst IExpr x)
          | Some r => p_slice f (Some (fst x)) r
          end)
      end.
Proof. reflexivity. Qed.
Lemma p_slice_S f a ts : p_slice (S f) a ts =
      match at_kind colon ts, at_kind comma ts, at_kind square_close ts with
      | Some r, _, _ => obind (p_rule f OrTest r) (fun x => Ret (pfst (fun e => IRange a None (Some e)) x))
      | None, None, None =>
          obind (p_rule f OrTest ts) (fun x =>
          match at_kind colon (snd x) with
          | None => Ret (pfst (fun e => IRange a (Some e) None) x)
          | Some r => obind (p_rule f OrTest r) (fun y => Ret (pfst (fun e => IRange a (Some (fst x)) (Some e)) y))
          end)
      | None, _, _ => Ret (IRange a None None, ts)
      end.
Proof. reflexivity. Qed.

Lemma mono_all f : mono_at f.
Proof.
  induction f as [|f (R & M & P & A & L & T & Is & I & S0)].
  - repeat split; intros; apply below_out.
  - repeat apply conj; intros.
    + rewrite (p_rule_S f), (p_rule_S (S f)). repeat mono_step.
    + rewrite (p_more_S f), (p_more_S (S f)). repeat mono_step.
    + rewrite (p_post_S f), (p_post_S (S f)). repeat mono_step.
    + rewrite (p_atom_S f), (p_atom_S (S f)). repeat mono_step.
    + rewrite (p_list_S f), (p_list_S (S f)). repeat mono_step.
    + rewrite (p_table_S f), (p_table_S (S f)). repeat mono_step.
    + rewrite (p_items_S f), (p_items_S (S f)). repeat mono_step.
    + rewrite (p_item_S f), (p_item_S (S f)). repeat mono_step.
    + rewrite (p_slice_S f), (p_slice_S (S f)). repeat mono_step.
Qed.

Lemma below_trans {A} (a b c : outcome A) : below a b -> below b c -> below a c.
Proof. intros [-> | ->] H; [now left|exact H]. Qed.
Lemma below_eq {A} (a b r : outcome A) : below a b -> a = r -> r <> Raise OutOfFuel -> b = r.
Proof. intros [E | E] H N; congruence. Qed.
Lemma more_mono f f' l acc ts : f <= f' -> below (p_more f l acc ts) (p_more f' l acc ts).
Proof.
  induction 1 as [|f' _ IH]; [apply below_refl|].
  eapply below_trans; [exact IH|apply (mono_all f')].
Qed.
Lemma post_mono f f' acc ts : f <= f' -> below (p_post f acc ts) (p_post f' acc ts).
Proof.
  induction 1 as [|f' _ IH]; [apply below_refl|].
  eapply below_trans; [exact IH|apply (mono_all f')].
Qed.
