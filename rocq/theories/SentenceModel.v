(** The parser of dREL statements: from the tokens of drel/drel_lex.py to the
    parse trees of DrelModel.  No proofs here.

    As in PhraseModel the productions of drel/drel_ast_yacc.py are functions that
    look at the next token in place of PLY's tables, and shift where PLY does:
    "else" and "elseif" go to the last "if" that can take them (452-469),
    newlines to the statement before them (554-567), "{" with a text and ":"
    or with "}" behind it is a table also where a block could stand (478-484),
    and a token behind the list of a "for" or the range of a "do" that can go on
    with the expression does (486-492, 520-528).  The types of the arguments of
    a function (546-550) are parsed and dropped, as in DrelModel. *)
From Coq Require Import String Ascii List NArith PeanoNat Bool.
From Verif Require Import PyBase LexModel DrelModel PhraseModel.
Import ListNotations.
Open Scope nat_scope.

Definition equals : kind := LIT 61.
Definition semicolon : kind := LIT 59.

(** expression (110-112) and testlist_star_expr (99-105) *)
Definition p_expr (ts : list tok) : parsed cx := p_rule (enough ts) OrTest ts.
Definition p_exprs (ts : list tok) : parsed (list cx) := p_list (enough ts) true ts.

Definition p_id (ts : list tok) : parsed str :=
  match ts with (ID, s) :: r => Ret (s, r) | _ => Raise SyntaxErr end.

(** dotlist, 410-416 *)
Fixpoint p_dots (f : nat) (ts : list tok) : parsed (list (str * cx)) :=
  match f with
  | O => Raise OutOfFuel
  | S f =>
      obind (expect dot tt ts) (fun a =>
      obind (p_id (snd a)) (fun n =>
      obind (expect equals tt (snd n)) (fun b =>
      obind (p_expr (snd b)) (fun e =>
      match at_kind comma (snd e) with
      | None => Ret ([(fst n, fst e)], snd e)
      | Some r => obind (p_dots f r) (fun l => Ret (pfst (cons (fst n, fst e)) l))
      end))))
  end.

(** Whether "(" and "." follow an ID: fancy_drel_assignment_stmt, 403-405. *)
Definition fancy (ts : list tok) : option (str * list tok) :=
  match ts with
  | (ID, s) :: r =>
      match at_kind OPEN_PAREN r with
      | Some r2 => match at_kind dot r2 with Some _ => Some (s, r2) | None => None end
      | None => None
      end
  | _ => None
  end.

(** small_stmt and expr_stmt, 64-97 *)
Definition p_small (ts : list tok) : parsed small :=
  match ts with
  | (PRINT, _) :: r => obind (p_expr r) (fun x => Ret (pfst MPrint x))
  | (BREAK, _) :: r => Ret (MBreak, r)
  | (NEXT, _) :: r => Ret (MNext, r)
  | _ =>
      match fancy ts with
      | Some (cat, r) =>
          obind (p_dots (S (length r)) r) (fun l => expect CLOSE_PAREN (MFancy cat (fst l)) (snd l))
      | None =>
          obind (p_exprs ts) (fun x =>
          match snd x with
          | (AUGOP, v) :: r => obind (p_exprs r) (fun y => Ret (pfst (MAssign (fst x) v) y))
          | (LIT c, v) :: r =>
              if (c =? 61)%N then obind (p_exprs r) (fun y => Ret (pfst (MAssign (fst x) v) y))
              else Ret (pfst MExprs x)
          | _ => Ret (pfst MExprs x)
          end)
      end
  end.

(** simple_stmt, 47-53; a ";" before the newline is left to statement (40-41). *)
Fixpoint p_simple (f : nat) (ts : list tok) : parsed (list small) :=
  match f with
  | O => Raise OutOfFuel
  | S f =>
      obind (p_small ts) (fun x =>
      match at_kind semicolon (snd x) with
      | None => Ret (pfst (fun m => [m]) x)
      | Some ((NEWLINE, v) :: r) => Ret ([fst x], (NEWLINE, v) :: r)
      | Some r => obind (p_simple f r) (fun y => Ret (pfst (cons (fst x)) y))
      end)
  end.
(** newlines, 562-565 *)
Definition need_nl {A} (x : A) (ts : list tok) : parsed A :=
  match ts with (NEWLINE, _) :: r => Ret (x, skip_nl r) | _ => Raise SyntaxErr end.

(** id_list, 426-433 *)
Fixpoint p_ids (f : nat) (ts : list tok) : parsed (list str) :=
  match f with
  | O => Raise OutOfFuel
  | S f =>
      obind (p_id ts) (fun x =>
      match at_kind comma (snd x) with
      | None => Ret (pfst (fun s => [s]) x)
      | Some r => obind (p_ids f r) (fun y => Ret (pfst (cons (fst x)) y))
      end)
  end.
(** arglist, 546-550 *)
Definition p_display (ts : list tok) : parsed cx :=
  match at_kind square_open ts with Some _ => p_atom (enough ts) ts | None => Raise SyntaxErr end.
Fixpoint p_args (f : nat) (ts : list tok) : parsed (list str) :=
  match f with
  | O => Raise OutOfFuel
  | S f =>
      obind (p_id ts) (fun x =>
      obind (expect colon tt (snd x)) (fun c =>
      obind (p_display (snd c)) (fun d =>
      match at_kind comma (snd d) with
      | None => Ret ([fst x], snd d)
      | Some r => obind (p_args f r) (fun y => Ret (pfst (cons (fst x)) y))
      end)))
  end.

(** restricted_comp_operator, 153-160 *)
Definition restricted (ts : list tok) : option (str * list tok) :=
  match ts with
  | (LIT c, v) :: r => if existsb (N.eqb c) (u "<>") then Some (v, r) else None
  | ((GTE | LTE | NEQ | ISEQUAL), v) :: r => Some (v, r)
  | _ => None
  end.

(** The parts of the heads of compound statements. *)
Definition p_cond (ts : list tok) : parsed cx :=
  obind (expect OPEN_PAREN tt ts) (fun a =>
  obind (p_expr (snd a)) (fun e => expect CLOSE_PAREN (fst e) (snd e))).
(** ID AS ID, 501, 539 *)
Definition p_alias (ts : list tok) : parsed (str * str) :=
  match ts with (ID, a) :: (AS, _) :: (ID, c) :: r => Ret ((a, c), r) | _ => Raise SyntaxErr end.
(** 500-511 *)
Definition p_loop_tail (ts : list tok) : parsed (str * (str * str)) :=
  match at_kind colon ts with
  | None => Ret (([], ([], [])), ts)
  | Some r =>
      obind (p_id r) (fun i =>
      match restricted (snd i) with
      | None => Ret ((fst i, ([], [])), snd i)
      | Some (op, r2) => obind (p_id r2) (fun v => Ret ((fst i, (op, fst v)), snd v))
      end)
  end.
(** 486-492 *)
Definition p_for_head (ts : list tok) : parsed (list str * list cx) :=
  obind (match at_kind square_open ts with
         | Some r => obind (p_ids (S (length r)) r) (fun x => expect square_close (fst x) (snd x))
         | None => p_ids (S (length ts)) ts
         end) (fun ids =>
  match snd ids with
  | (IN_, _) :: r => obind (p_exprs r) (fun l => Ret ((fst ids, fst l), snd l))
  | _ => Raise SyntaxErr
  end).
(** 520-528 *)
Definition p_do_head (ts : list tok) : parsed (str * (cx * cx * option cx)) :=
  obind (p_id ts) (fun i =>
  obind (expect equals tt (snd i)) (fun e =>
  obind (p_expr (snd e)) (fun a =>
  obind (expect comma tt (snd a)) (fun c =>
  obind (p_expr (snd c)) (fun b =>
  match at_kind comma (snd b) with
  | None => Ret ((fst i, (fst a, fst b, None)), snd b)
  | Some r => obind (p_expr r) (fun s => Ret ((fst i, (fst a, fst b, Some (fst s))), snd s))
  end))))).
(** 542-543 *)
Definition p_func_head (ts : list tok) : parsed (str * list str) :=
  obind (p_id ts) (fun n =>
  obind (expect OPEN_PAREN tt (snd n)) (fun o =>
  obind (p_args (S (length (snd o))) (snd o)) (fun a => expect CLOSE_PAREN (fst n, fst a) (snd a)))).

(** Whether what follows "{" makes it a table. *)
Definition table_next (ts : list tok) : bool :=
  match at_kind curly_close ts, string_literal ts with
  | Some _, _ => true
  | None, Some (_, r) => match at_kind colon r with Some _ => true | None => false end
  | None, None => false
  end.

(** statement and compound_stmt: 39-43, 438-543 *)
Fixpoint p_stmt (f : nat) (ts : list tok) {struct f} : parsed cs :=
  match f with
  | O => Raise OutOfFuel
  | S f =>
      match ts with
      | (IF, _) :: r =>                                                                (* 452-469 *)
          obind (p_cond r) (fun c =>
          obind (p_suite f (skip_nl (snd c))) (fun s =>
          obind (p_elifs f (snd s)) (fun l =>
          match snd l with
          | (ELSE, _) :: q => obind (p_suite f q) (fun e => Ret (pfst (fun t => CIf (fst c) (fst s) (fst l) (Some t)) e))
          | _ => Ret (CIf (fst c) (fst s) (fst l) None, snd l)
          end)))
      | (FOR, _) :: r =>
          obind (p_for_head r) (fun h => obind (p_suite f (snd h)) (fun s => Ret (pfst (CFor (fst (fst h)) (snd (fst h))) s)))
      | (DO, _) :: r =>                                                                (* 513-528 *)
          obind (p_do_head r) (fun h =>
          match fst h with
          | (i, (a, b, c)) => obind (p_suite f (snd h)) (fun s => Ret (pfst (CDo i a b c) s))
          end)
      | (LOOP, _) :: r =>                                                              (* 494-511 *)
          obind (p_alias r) (fun a =>
          obind (p_loop_tail (snd a)) (fun h =>
          match fst h with
          | (idx, (op, var)) => obind (p_suite f (snd h)) (fun s => Ret (pfst (CLoop (fst (fst a)) (snd (fst a)) idx op var) s))
          end))
      | (WITH, _) :: r =>                                                              (* 534-540 *)
          obind (p_alias r) (fun a =>
          obind (p_suite f (skip_nl (snd a))) (fun s => Ret (pfst (CWith (fst (fst a)) (snd (fst a))) s)))
      | (REPEAT, _) :: r => obind (p_suite f r) (fun s => Ret (pfst CRepeat s))         (* 530-532 *)
      | (FUNCTION, _) :: r =>
          obind (p_func_head r) (fun h => obind (p_suite f (snd h)) (fun s => Ret (pfst (CFunc (fst (fst h)) (snd (fst h))) s)))
      | _ => obind (p_simple (S (length ts)) ts) (fun l => need_nl (CSimple (fst l)) (snd l))
      end
  end
(** 459-468 *)
with p_elifs (f : nat) (ts : list tok) {struct f} : parsed (list (cx * list cs)) :=
  match f with
  | O => Raise OutOfFuel
  | S f =>
      match ts with
      | (ELSEIF, _) :: r =>
          obind (p_cond r) (fun c =>
          obind (p_suite f (skip_nl (snd c))) (fun s =>
          obind (p_elifs f (snd s)) (fun l => Ret (pfst (cons (fst c, fst s)) l))))
      | _ => Ret ([], ts)
      end
  end
(** 478-484 *)
with p_suite (f : nat) (ts : list tok) {struct f} : parsed (list cs) :=
  match f with
  | O => Raise OutOfFuel
  | S f =>
      match at_kind curly_open ts with
      | Some r =>
          if table_next (skip_nl r) then obind (p_stmt f ts) (fun x => Ret (pfst (fun c => [c]) x))
          else obind (p_stmts f (skip_nl r)) (fun l =>
               obind (expect curly_close (fst l) (snd l)) (fun x => Ret (fst x, skip_nl (snd x))))
      | None => obind (p_stmt f ts) (fun x => Ret (pfst (fun c => [c]) x))
      end
  end
(** 58-62 *)
with p_stmts (f : nat) (ts : list tok) {struct f} : parsed (list cs) :=
  match f with
  | O => Raise OutOfFuel
  | S f =>
      obind (p_stmt f ts) (fun x =>
      match at_kind curly_close (snd x) with
      | Some _ => Ret (pfst (fun c => [c]) x)
      | None => obind (p_stmts f (snd x)) (fun y => Ret (pfst (cons (fst x)) y))
      end)
  end.

(** input, 22-31 *)
Fixpoint p_input (f : nat) (ts : list tok) : outcome (list cs) :=
  match f with
  | O => Raise OutOfFuel
  | S f =>
      obind (p_stmt f ts) (fun x =>
      match snd x with
      | [] => Ret [fst x]
      | _ :: _ => obind (p_input f (snd x)) (fun l => Ret (fst x :: l))
      end)
  end.
Definition method (ts : list tok) : outcome (list cs) := p_input (4 * S (length ts)) (skip_nl ts).
