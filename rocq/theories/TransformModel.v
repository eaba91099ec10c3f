(** Model of the translation of all dREL methods of a dictionary, CifDic.transform_drel
    (src/CifFile_module.nw 2789-2844), and of its functions, CifDic.add_drel_funcs
    (2854-2877), with the start of make_python_function (src/drel/py_from_ast.nw 70-111,
    229-239, 889-895).  No proofs here. *)
From Coq Require Import String Ascii List NArith PeanoNat Bool.
From Verif Require Import PyBase StarBlockModel ValidateModel TreeModel LexModel DrelModel PhraseModel SentenceModel HeaderModel.
Import ListNotations.
Open Scope nat_scope.

(** str.splitlines: the characters at which python ends a line; \r\n is one end. *)
Definition is_break (c : N) : bool := existsb (N.eqb c) [10; 11; 12; 13; 28; 29; 30; 0x85; 0x2028; 0x2029]%N.
Fixpoint splitlines (s : str) : list str :=
  match s with
  | [] => []
  | c :: r =>
      if is_break c then
        [] :: match r with
              | c2 :: r2 => if ((c =? 13) && (c2 =? 10))%N%bool then splitlines r2 else splitlines r
              | [] => []
              end
      else match splitlines r with
           | [] => [[c]]
           | l :: t => (c :: l) :: t
           end
  end.
(** "\n".join *)
Fixpoint join_nl (l : list str) : str :=
  match l with
  | [] => []
  | [x] => x
  | x :: r => x ++ 10%N :: join_nl r
  end.
(** 2816, 2866, and the newline of 2820 *)
Definition function_text (s : str) : str := join_nl (splitlines s).
Definition method_text (s : str) : str := function_text s ++ [10%N].

(** parser.parse with a lexer that is in some state.  Simplification: tokens are read
    before they are parsed. *)
Definition parse (st : lstate) (s : str) : outcome (list cs * lstate) :=
  obind (lex st s) (fun x => obind (method (fst x)) (fun l => Ret (l, snd x))).
(** lexer.begin('INITIAL'), 2828.  The states that were pushed stay on the stack of
    the lexer; they are never reached, since a closing parenthesis is only known inside
    parentheses.  The line number, which is used in messages only, is not followed. *)
Definition reset (st : lstate) : lstate := {| s_depth := 0; s_line := s_line st |}.

(** ** make_python_function up to the body (66-109, 229-239) *)
(** dataname.split("."): with a number of parts other than two, `cat' has no value
    (889-895). *)
Fixpoint cut_dot (s : str) : option (str * str) :=
  match s with
  | [] => None
  | c :: r => if (c =? 46)%N then Some ([], r) else match cut_dot r with Some (a, b) => Some (c :: a, b) | None => None end
  end.
Definition getcatname (s : str) : outcome (str * str) :=
  match cut_dot s with
  | Some (a, b) => match cut_dot b with Some _ => Raise NameErr | None => Ret (tl a, b) end
  | None => Raise NameErr
  end.
Definition start_ids (e : env) (k : str) : outcome (list (str * (str * str * bool))) :=
  obind (getcatname k) (fun cn =>
    Ret [(95%N :: fst cn, (fst cn, if dmem str_eqb (fst cn) (e_loopable e) then u "looped_cat" else [], false))]).
Definition start_with (ids : list (str * (str * str * bool))) : sp := Sp ids [] [] [] [] false None false false.
Definition for_target (e : env) (k : str) : env := Env (Some k) (e_loopable e) (e_name e) (e_names e) (e_key e).
(** The translated lines in their place; the text of the header is not modelled (see
    HeaderModel for what it does). *)
Definition make_body (e : env) (k : str) (cat_meth : bool) (l : list cs) : outcome str :=
  obind (if cat_meth then Ret [] else start_ids e k) (fun ids =>
  obind (traverse (for_target e k) (binput l) (start_with ids)) (fun x => body_text (fst x))).

(** ** transform_drel *)
Definition a_expr : str := u "_method.expression".
Definition a_purpose : str := u "_method.purpose".
Definition a_python : str := u "_method.py_expression".
Definition evaluation : str := u "Evaluation".
(** 2804-2805.  Simplification: a definition's attributes are its own, as they are
    after its imports have been carried out (C49, C60). *)
Definition in_functions (t : table) : bool := veq_text (tget (u "_name.category_id") t) (u "function").
Definition derivable (t : table) : bool := tmem a_expr t && negb (in_functions t).
(** 2811-2817 *)
Definition items_of (v : value) : outcome (list value) :=
  match v with
  | VList l | VSL l => Ret l
  | VStr s => Ret (map (fun c => VStr [c]) s)
  | VDict d => Ret (map (fun kv => VStr (fst kv)) d)
  | VNum _ | VNone => Raise TypeErr
  end.
Definition is_list (v : value) : bool := match v with VList _ | VSL _ => true | _ => false end.
Definition method_pairs (t : table) : outcome (list (value * value)) :=
  match tget a_expr t with
  | None => Raise KeyErr
  | Some e =>
      match tget a_purpose t with
      | None => Raise KeyErr
      | Some p =>
          if is_list e then obind (items_of p) (fun ps => obind (items_of e) (fun es => Ret (combine ps es)))
          else Ret [(p, e)]
      end
  end.
Notation cat_method := is_category.

Section Transform.
  (** make_python_function for the definition with a name. *)
  Context (make : str -> bool -> list cs -> outcome str).
  (** 2818-2837 *)
  Fixpoint methods (k : str) (cat : bool) (st : lstate) (l : list (value * value)) : outcome (list str * lstate) :=
    match l with
    | [] => Ret ([], st)
    | (p, x) :: r =>
        if veq_text (Some p) evaluation then
          match x with
          | VStr s =>
              match parse st (method_text s) with
              | Ret (a, st1) =>
                  obind (make k cat a) (fun t => obind (methods k cat st1 r) (fun ts => Ret (t :: fst ts, snd ts)))
              | Raise _ => methods k cat (reset st) r
              end
          | _ => Raise AttributeErr
          end
        else methods k cat st r
    end.
  (** 2838-2842 *)
  Definition store (ts : list str) (t : table) : table :=
    match ts with [] => t | _ => dset str_eqb a_python (VList (map VStr ts)) t end.
  Definition transform_one (k : str) (t : table) (st : lstate) : outcome (table * lstate) :=
    if derivable t then
      obind (method_pairs t) (fun l => obind (methods k (cat_method t) st l) (fun x => Ret (store (fst x) t, snd x)))
    else Ret (t, st).
  (** What the dictionary is afterwards, and whether an exception came out. *)
  Fixpoint transform (d : defs) (st : lstate) : defs * outcome lstate :=
    match d with
    | [] => ([], Ret st)
    | (k, t) :: r =>
        match transform_one k t st with
        | Ret (t1, st1) => let x := transform r st1 in ((k, t1) :: fst x, snd x)
        | Raise x => (d, Raise x)
        end
    end.

End Transform.

(** ** add_drel_funcs (2854-2877) *)
(** GetKeyedPacket("_method.purpose","Evaluation") and the expression of that packet
    (src/StarFile.nw 2188-2203): the two items must be in a loop (LoopBlock), and one
    packet must have this purpose.  Simplification: what is a list is looped. *)
Definition evaluation_text (t : table) : outcome str :=
  match tget a_purpose t, tget a_expr t with
  | Some (VList ps), Some (VList es) =>
      match filter (fun px => veq_text (Some (fst px)) evaluation) (combine ps es) with
      | [(_, VStr s)] => Ret s
      | [_] => Raise AttributeErr
      | _ => Raise ValueErr
      end
  | _, _ => Raise KeyErr
  end.
Definition object_of (t : table) : outcome value := match tget (u "_name.object_id") t with Some v => Ret v | None => Raise KeyErr end.
(** 2857-2859 *)
Fixpoint function_list (d : defs) : outcome (list (value * str)) :=
  match d with
  | [] => Ret []
  | (k, t) :: r =>
      if in_functions t then
        obind (object_of t) (fun n => obind (evaluation_text t) (fun s => obind (function_list r) (fun l => Ret ((n, s) :: l))))
      else function_list r
  end.
(** The names that the translated text defines when it is executed: those of the
    functions in it (py_from_ast.nw 647-658).  Simplification: other statements of the
    text are taken to define nothing. *)
Definition defined (l : list cs) : list str := flat_map (fun c => match c with CFunc f _ _ => [f] | _ => [] end) l.
Definition globals := list (str * str).
Fixpoint set_all (names : list str) (t : str) (g : globals) : globals :=
  match names with [] => g | n :: r => set_all r t (dset str_eqb n t g) end.

Section Functions.
  (** make_python_function with func_def = True, for a target. *)
  Context (make_func : value -> list cs -> outcome str).
  (** 2867-2876: no exception is caught. *)
  Fixpoint add_functions (l : list (value * str)) (st : lstate) (g : globals) : globals * outcome lstate :=
    match l with
    | [] => (g, Ret st)
    | (n, s) :: r =>
        match parse st (function_text s) with
        | Raise x => (g, Raise x)
        | Ret (a, st1) =>
            match make_func n a with
            | Raise x => (g, Raise x)
            | Ret t => add_functions r st1 (set_all (defined a) t g)
            end
        end
    end.
  Definition add_drel_funcs (d : defs) (st : lstate) (g : globals) : globals * outcome lstate :=
    match function_list d with
    | Raise x => (g, Raise x)
    | Ret l => add_functions l st g
    end.
End Functions.
(** make_python_function with func_def = True: the translated text itself (83-86). *)
Definition make_def (e : env) (n : value) (l : list cs) : outcome str :=
  match n with
  | VStr s => obind (traverse (for_target e s) (binput l) (start_with [])) (fun x => Ret (fst x))
  | _ => Raise AttributeErr
  end.
