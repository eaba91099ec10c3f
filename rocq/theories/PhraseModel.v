(** The parser of dREL expressions: from the tokens of drel/drel_lex.py (LexModel)
    to the parse trees on which the actions of the grammar work (DrelModel).
    No proofs here.

    drel/drel_ast_yacc.py gives the grammar and PLY makes an LALR(1) parser of
    it.  The tables are not modelled; here every production has a function that
    looks at the next token.  Where the grammar lets PLY either shift or reduce
    it shifts: [primary "[" expression "]"] is a subscription and not a list of
    one slice (327-334, 367-378), "," after the first member of a list or table
    goes on with it (270-284, 295-308), "(" after an ID makes a call (380-387).
    A token that fits nowhere gives SyntaxError (p_error, 571-579). *)
From Coq Require Import String Ascii List NArith PeanoNat Bool.
From Verif Require Import PyBase LexModel DrelModel.
Import ListNotations.
Open Scope nat_scope.

Notation tok := (kind * str)%type (only parsing).
Definition parsed (A : Type) := outcome (A * list tok).

(** The productions from or_test to primary, 118-208. *)
Inductive rule := OrTest | AndTest | NotTest | Comparison | AExpression | MExpression | UExpression | Power | Primary.

(** The operators of or_test (118-123), and_test (125-130), a_expr (162-169) and
    m_expr (171-181), with the text that goes into the tree. *)
Definition left_op (l : rule) (t : tok) : option str :=
  match l, fst t with
  | OrTest, (OR | BADOR) => Some (u "or")
  | AndTest, (AND | BADAND) => Some (u "and")
  | AExpression, LIT c => if existsb (N.eqb c) (u "+-") then Some (snd t) else None
  | MExpression, LIT c => if existsb (N.eqb c) (u "*/^&|") then Some (snd t) else None
  | _, _ => None
  end.

(** comp_operator and restricted_comp_operator, 145-160: the text and the
    tokens behind the operator. *)
Definition comp_op (ts : list tok) : outcome (option (str * list tok)) :=
  match ts with
  | (NOT, _) :: (IN_, _) :: r => Ret (Some (u "not in", r))
  | (NOT, _) :: _ => Raise SyntaxErr
  | (LIT c, v) :: r => Ret (if existsb (N.eqb c) (u "<>") then Some (v, r) else None)
  | ((GTE | LTE | NEQ | ISEQUAL | IN_), v) :: r => Ret (Some (v, r))
  | _ => Ret None
  end.

(** maybe_nline, 554-567 *)
Fixpoint skip_nl (ts : list tok) : list tok :=
  match ts with (NEWLINE, _) :: r => skip_nl r | _ => ts end.

(** A token that must come next. *)
Definition kind_is (k k' : kind) : bool :=
  match k, k' with
  | LIT a, LIT b => N.eqb a b
  | OPEN_PAREN, OPEN_PAREN | CLOSE_PAREN, CLOSE_PAREN => true
  | _, _ => false
  end.
Definition expect {A} (k : kind) (x : A) (ts : list tok) : parsed A :=
  match ts with
  | (k', _) :: r => if kind_is k k' then Ret (x, r) else Raise SyntaxErr
  | [] => Raise SyntaxErr
  end.
Definition at_kind (k : kind) (ts : list tok) : option (list tok) :=
  match ts with (k', _) :: r => if kind_is k k' then Some r else None | [] => None end.

Definition comma : kind := LIT 44.
Definition colon : kind := LIT 58.
Definition dot : kind := LIT 46.
Definition backquote : kind := LIT 96.
Definition square_open : kind := LIT 91.
Definition square_close : kind := LIT 93.
Definition curly_open : kind := LIT 123.
Definition curly_close : kind := LIT 125.

(** stringliteral, 233-239 *)
Definition string_literal (ts : list tok) : option (str * list tok) :=
  match ts with
  | (STRPREFIX, p) :: ((SHORTSTRING | LONGSTRING), s) :: r => Some (p ++ s, r)
  | ((SHORTSTRING | LONGSTRING), s) :: r => Some (s, r)
  | _ => None
  end.
(** literal, 222-231 *)
Definition literal (ts : list tok) : option (str * list tok) :=
  match ts with
  | ((INTEGER | HEXINT | OCTINT | BININT | REAL | IMAGINARY), v) :: r => Some (v, r)
  | _ => string_literal ts
  end.

(** What follows "[": one expression (327-329), one slice, or a list (331-378). *)
Definition bracketed (p : cx) (l : list citem) : cx :=
  match l with
  | [IExpr e] => XSub p e
  | [IRange a b c] => XRange p a b c
  | _ => XSlices p l
  end.

Definition pfst {A B} (f : A -> B) (x : A * list tok) : B * list tok := (f (fst x), snd x).

(** 110-401; the first argument bounds the depth of the calls. *)
Fixpoint p_rule (f : nat) (l : rule) (ts : list tok) {struct f} : parsed cx :=
  match f with
  | O => Raise OutOfFuel
  | S f =>
      match l with
      | OrTest => obind (p_rule f AndTest ts) (fun x => p_more f OrTest (fst x) (snd x))
      | AndTest => obind (p_rule f NotTest ts) (fun x => p_more f AndTest (fst x) (snd x))
      | NotTest =>                                                                     (* 132-136 *)
          match ts with
          | (NOT, _) :: r => obind (p_rule f NotTest r) (fun x => Ret (pfst XNot x))
          | _ => p_rule f Comparison ts
          end
      | Comparison =>                                                                  (* 138-143 *)
          obind (p_rule f AExpression ts) (fun x =>
          obind (comp_op (snd x)) (fun o =>
          match o with
          | None => Ret x
          | Some (op, r) => obind (p_rule f AExpression r) (fun y => Ret (pfst (XBin op (fst x)) y))
          end))
      | AExpression => obind (p_rule f MExpression ts) (fun x => p_more f AExpression (fst x) (snd x))
      | MExpression => obind (p_rule f UExpression ts) (fun x => p_more f MExpression (fst x) (snd x))
      | UExpression =>                                                                 (* 183-190 *)
          match ts with
          | (LIT c, v) :: r =>
              if existsb (N.eqb c) (u "+-") then obind (p_rule f UExpression r) (fun x => Ret (pfst (XSign v) x))
              else p_rule f Power ts
          | _ => p_rule f Power ts
          end
      | Power =>                                                                       (* 192-199 *)
          obind (p_rule f Primary ts) (fun x =>
          match snd x with
          | (POWER, _) :: r => obind (p_rule f UExpression r) (fun y => Ret (pfst (XBin (u "**") (fst x)) y))
          | _ => Ret x
          end)
      | Primary => obind (p_atom f ts) (fun x => p_post f (fst x) (snd x))             (* 201-208 *)
      end
  end

(** The left recursion of 118-181. *)
with p_more (f : nat) (l : rule) (acc : cx) (ts : list tok) {struct f} : parsed cx :=
  match f with
  | O => Raise OutOfFuel
  | S f =>
      match ts with
      | [] => Ret (acc, ts)
      | t :: r =>
          match left_op l t with
          | None => Ret (acc, ts)
          | Some op =>
              obind (p_rule f (match l with
                               | OrTest => AndTest | AndTest => NotTest
                               | AExpression => MExpression | _ => UExpression end) r)
                    (fun x => p_more f l (XBin op acc (fst x)) (snd x))
          end
      end
  end

(** attributeref, subscription and slicing: 315-334 *)
with p_post (f : nat) (acc : cx) (ts : list tok) {struct f} : parsed cx :=
  match f with
  | O => Raise OutOfFuel
  | S f =>
      match ts with
      | (REAL, v) :: r => p_post f (XAttr acc (tail v)) r                              (* 325: p[1][1:] *)
      | (LIT c, _) :: r =>
          if (c =? 46)%N then
            match r with
            | (ID, s) :: r2 => p_post f (XAttr acc s) r2
            | _ => Raise SyntaxErr
            end
          else if (c =? 91)%N then
            obind (p_items f r) (fun x =>
            obind (expect square_close (bracketed acc (fst x)) (snd x)) (fun y => p_post f (fst y) (snd y)))
          else Ret (acc, ts)
      | _ => Ret (acc, ts)
      end
  end

(** atom, enclosure and call: 210-293, 380-388 *)
with p_atom (f : nat) (ts : list tok) {struct f} : parsed cx :=
  match f with
  | O => Raise OutOfFuel
  | S f =>
      match ts with
      | (ID, s) :: r =>
          match at_kind OPEN_PAREN r with
          | None => Ret (XName s, r)
          | Some r2 =>
              match at_kind CLOSE_PAREN r2 with
              | Some r3 => Ret (XCall s [], r3)
              | None => obind (p_list f false r2) (fun x => expect CLOSE_PAREN (XCall s (fst x)) (snd x))
              end
          end
      | (ITEM_TAG, s) :: r => Ret (XTag s, r)
      | (OPEN_PAREN, _) :: r =>                                                        (* 248-253 *)
          match at_kind CLOSE_PAREN r with
          | Some r2 => Ret (XGroup [], r2)
          | None => obind (p_list f true r) (fun x => expect CLOSE_PAREN (XGroup (fst x)) (snd x))
          end
      | (LIT c, _) :: r =>
          if (c =? 96)%N then                                                          (* 256-259 *)
            obind (p_list f true r) (fun x => expect backquote (XConv (fst x)) (snd x))
          else if (c =? 91)%N then                                                     (* 261-266 *)
            match at_kind square_close (skip_nl r) with
            | Some r2 => Ret (XList [], r2)
            | None => obind (p_list f true (skip_nl r)) (fun x => expect square_close (XList (fst x)) (skip_nl (snd x)))
            end
          else if (c =? 123)%N then                                                    (* 287-293 *)
            match at_kind curly_close (skip_nl r) with
            | Some r2 => Ret (XTable [], r2)
            | None => obind (p_table f (skip_nl r)) (fun x => expect curly_close (XTable (fst x)) (skip_nl (snd x)))
            end
          else Raise SyntaxErr
      | _ => match literal ts with Some (v, r) => Ret (XLit v, r) | None => Raise SyntaxErr end
      end
  end

(** Expressions with commas between them: testlist_star_expr (99-105) and
    listmaker (270-284), where newlines may follow a comma, and argument_list
    (391-401), where they may not. *)
with p_list (f : nat) (nl : bool) (ts : list tok) {struct f} : parsed (list cx) :=
  match f with
  | O => Raise OutOfFuel
  | S f =>
      obind (p_rule f OrTest ts) (fun x =>
      match at_kind comma (snd x) with
      | None => Ret (pfst (fun e => [e]) x)
      | Some r => obind (p_list f nl (if nl then skip_nl r else r)) (fun y => Ret (pfst (cons (fst x)) y))
      end)
  end

(** tablemaker, 295-308 *)
with p_table (f : nat) (ts : list tok) {struct f} : parsed (list (str * cx)) :=
  match f with
  | O => Raise OutOfFuel
  | S f =>
      match string_literal ts with
      | None => Raise SyntaxErr
      | Some (k, r) =>
          match at_kind colon r with
          | None => Raise SyntaxErr
          | Some r2 =>
              obind (p_rule f OrTest r2) (fun x =>
              match at_kind comma (snd x) with
              | None => Ret (pfst (fun e => [(k, e)]) x)
              | Some r3 => obind (p_table f (skip_nl r3)) (fun y => Ret (pfst (cons (k, fst x)) y))
              end)
          end
      end
  end

(** What stands between the brackets behind a primary, 327-378. *)
with p_items (f : nat) (ts : list tok) {struct f} : parsed (list citem) :=
  match f with
  | O => Raise OutOfFuel
  | S f =>
      obind (p_item f ts) (fun x =>
      match at_kind comma (snd x) with
      | None => Ret (pfst (fun e => [e]) x)
      | Some r => obind (p_items f r) (fun y => Ret (pfst (cons (fst x)) y))
      end)
  end

(** slice_item, short_slice and long_slice: 348-378 *)
with p_item (f : nat) (ts : list tok) {struct f} : parsed citem :=
  match f with
  | O => Raise OutOfFuel
  | S f =>
      match at_kind colon ts with
      | Some r => p_slice f None r
      | None =>
          obind (p_rule f OrTest ts) (fun x =>
          match at_kind colon (snd x) with
          | None => Ret (pfst IExpr x)
          | Some r => p_slice f (Some (fst x)) r
          end)
      end
  end
with p_slice (f : nat) (a : option cx) (ts : list tok) {struct f} : parsed citem :=
  match f with
  | O => Raise OutOfFuel
  | S f =>
      match at_kind colon ts, at_kind comma ts, at_kind square_close ts with
      | Some r, _, _ => obind (p_rule f OrTest r) (fun x => Ret (pfst (fun e => IRange a None (Some e)) x))
      | None, None, None =>
          obind (p_rule f OrTest ts) (fun x =>
          match at_kind colon (snd x) with
          | None => Ret (pfst (fun e => IRange a (Some e) None) x)
          | Some r => obind (p_rule f OrTest r) (fun y => Ret (pfst (fun e => IRange a (Some (fst x)) (Some e)) y))
          end)
      | None, _, _ => Ret (IRange a None None, ts)
      end
  end.

(** expression, 110-111; the tokens must all be used. *)
Definition enough (ts : list tok) : nat := 14 * S (length ts).
Definition expression (ts : list tok) : outcome cx :=
  obind (p_rule (enough ts) OrTest ts) (fun x =>
  match snd x with [] => Ret (fst x) | _ :: _ => Raise SyntaxErr end).
