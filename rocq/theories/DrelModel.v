(** Model of the translation of dREL methods into python text: the actions of the
    grammar that build the tree (src/drel/drel_ast_yacc.py 22-552) and traverse_ast
    with its tables and helpers (src/drel/py_from_ast.nw 228-898).

    Simplifications: the source is given as its parse tree (that PLY's tables follow
    the grammar is trusted, and so are drel_lex.py's tokens); the dictionary is given
    by its answers to the three questions that are asked of it; the scopes list
    special_id, which never holds more than one table, is that table; the debugging
    prints and the literal nodes which the grammar never makes (269-283) are left
    out; repr of a text puts it in single quotes; the text "Not found: .." (257) stops
    before the printed node. *)
From Coq Require Import String Ascii List NArith Bool.
From Coq Require Import DecimalString.
From Verif Require Import PyBase.
Import ListNotations.
Open Scope list_scope.

Definition sapp (l : list str) : str := concat l.
Definition dec (n : nat) : str := u (NilEmpty.string_of_uint (Nat.to_uint n)).
Definition nl : str := [10%N].
Definition squote (s : str) : str := u "'" ++ s ++ u "'".
Definition dquote (s : str) : str := [34%N] ++ s ++ [34%N].

(** ** Parse trees of expressions (drel_ast_yacc.py 110-401) *)
Inductive cx :=
| XName (s : str)                            (* ID *)
| XTag (s : str)                             (* ITEM_TAG *)
| XLit (s : str)                             (* literal *)
| XGroup (l : list cx)                       (* ( .. , .. ) *)
| XConv (l : list cx)                        (* ` .. ` *)
| XList (l : list cx)
| XTable (l : list (str * cx))
| XAttr (p : cx) (s : str)
| XSub (p e : cx)
| XRange (p : cx) (a b c : option cx)        (* primary [ proper_slice ] *)
| XSlices (p : cx) (l : list citem)          (* primary [ slice_list ], more than one *)
| XCall (f : str) (l : list cx)
| XBin (op : str) (a b : cx)
| XNot (a : cx)
| XSign (op : str) (a : cx)
with citem :=
| IExpr (e : cx)
| IRange (a b c : option cx).

(** Parse trees of statements (22-97, 403-552). *)
Inductive small :=
| MExprs (l : list cx)
| MAssign (lhs : list cx) (op : str) (rhs : list cx)
| MFancy (cat : str) (l : list (str * cx))
| MPrint (e : cx)
| MBreak
| MNext.
Inductive cs :=
| CSimple (l : list small)
| CIf (c : cx) (s : list cs) (elifs : list (cx * list cs)) (els : option (list cs))
| CFor (ids : list str) (l : list cx) (s : list cs)
| CDo (id : str) (a b : cx) (c : option cx) (s : list cs)
| CLoop (alias cat : str) (idx : str) (op var : str) (s : list cs)
| CWith (alias cat : str) (s : list cs)
| CRepeat (s : list cs)
| CFunc (f : str) (args : list str) (s : list cs).

(** ** The tree built by the actions *)
Inductive ast :=
| AText (s : str)                            (* ["ATOM", text] *)
| AAtom (a : ast)                            (* ["ATOM", node] *)
| ATag (s : str)
| ALit (s : str)
| AList (l : list ast)
| ATable (l : list (str * ast))
| AGroup (l : list ast)
| AGroup0                                    (* ["GROUP"] *)
| ACall (f : str) (l : list ast)
| ASub (p e : ast)
| ASlice (p : ast) (l : list asl)
| AAttr (p : ast) (s : str)
| AMath (op : str) (a b : ast)
| ASign (op : str) (a : ast)
| AUnary (op : str) (a : ast)
| AExpr (a : ast)
| AStmts (l : list ast)
| AAssign (lhs : list ast) (op : str) (rhs : list ast)
| AFancy (cat : str) (l : list (str * ast))
| AExprs (l : list ast)
| APrint (a : ast)
| ABreak
| ANext
| AIf (c s : ast) (elifs : list (ast * ast)) (els : option ast)
| ADo (id : str) (a b c s : ast)
| AFor (ids : list str) (l : list ast) (s : ast)
| ARepeat (s : ast)
| AWith (alias cat : str) (s : ast)
| ALoop (alias cat idx op var : str) (s : ast)
| AFunc (f : str) (args : list str) (s : ast)
with asl :=                                  (* an entry of a slice list *)
| SlE (e : ast)                              (* ["EXPR", ..] *)
| SlL (l : list ael)                         (* a list *)
with ael :=
| ElN (a : ast)                              (* ["EXPR", ..] *)
| ElZero                                     (* the number 0 *)
| ElL (l : list ael).                        (* a list *)

(** p_short_slice (348-358) and p_long_slice (360-365) *)
Definition short_slice (a b : option ael) : list ael :=
  match a, b with
  | None, None => []
  | Some x, Some y => [x; y]
  | None, Some y => [ElZero; y]
  | Some x, None => [x]
  end.
Definition proper_slice (a b c : option ael) : list ael :=
  match c with None => short_slice a b | Some z => short_slice a b ++ [z] end.

(** The actions of 110-401; [bx] gives the node of or_test .. atom, and an expression
    is that node under EXPR. *)
Fixpoint bx (c : cx) : ast :=
  match c with
  | XName s => AText s
  | XTag s => AAtom (ATag s)
  | XLit s => AAtom (ALit s)
  | XGroup [] => AAtom AGroup0
  | XGroup l => AAtom (AGroup (map (fun e => AExpr (bx e)) l))
  | XConv l => AAtom (ACall (u "str") (map (fun e => AExpr (bx e)) l))
  | XList l => AAtom (AList (map (fun e => AExpr (bx e)) l))
  | XTable l => AAtom (ATable (map (fun ke => (fst ke, AExpr (bx (snd ke)))) l))
  | XAttr p s => AAttr (bx p) s
  | XSub p e => ASub (bx p) (AExpr (bx e))
  | XRange p a b c =>
      let el o := option_map (fun e => ElN (AExpr (bx e))) o in
      ASlice (bx p) [SlL (proper_slice (el a) (el b) (el c))]
  | XSlices p l => ASlice (bx p) (map bi l)
  | XCall f l => ACall f (map (fun e => AExpr (bx e)) l)
  | XBin op a b => AMath op (bx a) (bx b)
  | XNot a => AUnary (u "not") (bx a)
  | XSign op a => ASign op (bx a)
  end
with bi (i : citem) : asl :=
  match i with
  | IExpr e => SlE (AExpr (bx e))
  | IRange a b c =>
      let el o := option_map (fun e => ElN (AExpr (bx e))) o in
      SlL [ElL (proper_slice (el a) (el b) (el c))]
  end.
Definition be (e : cx) : ast := AExpr (bx e).

(** 64-97, 403-416 *)
Definition bm (m : small) : ast :=
  match m with
  | MExprs l => AExprs (map be l)
  | MAssign lhs op rhs => AAssign (map be lhs) op (map be rhs)
  | MFancy cat l => AFancy cat (map (fun ke => (fst ke, be (snd ke))) l)
  | MPrint e => APrint (be e)
  | MBreak => ABreak
  | MNext => ANext
  end.
(** p_statements (58-62), on the statements already built. *)
Definition spliced (a : ast) : list ast := match a with AStmts l => l | _ => [a] end.
Definition statements (l : list ast) : ast :=
  match l with
  | [] => AStmts []
  | [a] => a
  | a :: r => AStmts (spliced a ++ r)
  end.
(** p_statement .. p_arglist (39-52, 438-552). *)
Fixpoint bs (s : cs) : ast :=
  match s with
  | CSimple l => AStmts (map bm l)
  | CIf c s elifs els =>
      AStmts [AIf (be c) (statements (map bs s))
                  (map (fun cl => (be (fst cl), statements (map bs (snd cl)))) elifs)
                  (option_map (fun l => statements (map bs l)) els)]
  | CFor ids l s => AStmts [AFor ids (map be l) (statements (map bs s))]
  | CDo id a b c s =>
      AStmts [ADo id (be a) (be b)
                  (match c with Some e => be e | None => AExpr (ALit (u "1")) end)
                  (statements (map bs s))]
  | CLoop alias cat idx op var s => AStmts [ALoop alias cat idx op var (statements (map bs s))]
  | CWith alias cat s => AStmts [AWith alias cat (statements (map bs s))]
  | CRepeat s => AStmts [ARepeat (statements (map bs s))]
  | CFunc f args s => AStmts [AFunc f args (statements (map bs s))]
  end.
(** p_input (22-31) *)
Definition binput (l : list cs) : ast := AStmts (concat (map (fun s => spliced (bs s)) l)).

(** ** The state of a traverse: special_info (231-233) *)
Record sp := Sp {
  s_ids : list (str * (str * str * bool));    (* special_id[-1]: category, loop variable, is a loop *)
  s_with : list (str * (str * nat * bool));   (* withtable: variable, position, optional *)
  s_sub : str;                                (* sub_subject *)
  s_deps : list str;                          (* depends, a set *)
  s_packets : list (str * str);               (* packet_vars *)
  s_row : bool;                               (* need_current_row *)
  s_rhs : option bool;
  s_inif : bool;
  s_have : bool                               (* have_drel_target *)
}.
Definition set_ids i st := Sp i (s_with st) (s_sub st) (s_deps st) (s_packets st) (s_row st) (s_rhs st) (s_inif st) (s_have st).
Definition set_with w st := Sp (s_ids st) w (s_sub st) (s_deps st) (s_packets st) (s_row st) (s_rhs st) (s_inif st) (s_have st).
Definition set_sub x st := Sp (s_ids st) (s_with st) x (s_deps st) (s_packets st) (s_row st) (s_rhs st) (s_inif st) (s_have st).
Definition set_deps d st := Sp (s_ids st) (s_with st) (s_sub st) d (s_packets st) (s_row st) (s_rhs st) (s_inif st) (s_have st).
Definition set_packets p st := Sp (s_ids st) (s_with st) (s_sub st) (s_deps st) p (s_row st) (s_rhs st) (s_inif st) (s_have st).
Definition set_row st := Sp (s_ids st) (s_with st) (s_sub st) (s_deps st) (s_packets st) true (s_rhs st) (s_inif st) (s_have st).
Definition set_rhs r st := Sp (s_ids st) (s_with st) (s_sub st) (s_deps st) (s_packets st) (s_row st) r (s_inif st) (s_have st).
Definition set_inif b st := Sp (s_ids st) (s_with st) (s_sub st) (s_deps st) (s_packets st) (s_row st) (s_rhs st) b (s_have st).
Definition set_have st := Sp (s_ids st) (s_with st) (s_sub st) (s_deps st) (s_packets st) (s_row st) (s_rhs st) (s_inif st) true.
Definition sadd (x : str) (l : list str) : list str := if existsb (str_eqb x) l then l else l ++ [x].
Definition depend (x : str) (st : sp) : sp := set_deps (sadd x (s_deps st)) st.

(** What the translation is told: target_id, loopable (category: its key ids) and the
    dictionary's get_name_by_cat_obj, the set of the first names of a category in
    cat_obj_lookup_table as printed, and cif_dic[cat]['_category_key.name'][0]. *)
Record env := Env {
  e_target : option str;
  e_loopable : list (str * list str);
  e_name : str -> str -> outcome str;
  e_names : str -> str;
  e_key : str -> outcome str
}.
(** The configuration table (40-48) *)
Definition data_access (x : str) : str := sapp [u "ciffile["; x; u "]"].
Definition optional_data_access (x : str) : str := sapp [u "ciffile.get("; x; u ",None)"].
Definition element_no (x n : str) : str := sapp [x; u "["; n; u "]"].
Definition count_data (x : str) : str := sapp [u "len("; x; u ")"].
Definition cat_names (x : str) : str := sapp [u "ciffile.dictionary.names_in_cat("; x; u ")"].
Definition has_name (x : str) : str := sapp [u "ciffile.has_key_or_alias("; x; u ")"].
Definition semantic_packet (k c : str) : str := sapp [u "ciffile.GetKeyedSemanticPacket("; k; u ","; c; u ")"].

(** The operator tables (787-798) *)
Definition mathop (op : str) : option (option str) :=
  dget str_eqb op
    [(u "+", None); (u "-", None); (u "<", Some (u "<")); (u "*", None); (u "/", None);
     (u "&", Some (u "&")); (u "|", Some (u "|"));
     (u ">", Some (u ">")); (u "<=", Some (u "<=")); (u ">=", Some (u ">=")); (u "!=", Some (u "!="));
     (u "or", Some (u " or ")); (u "and", Some (u " and "));
     (u "==", Some (u "==")); (u "in", Some (u " in ")); (u "not in", Some (u " not in "));
     (u "^", None); (u "**", Some (u "**"))].
Definition aug_assign (op : str) : option str :=
  dget str_eqb op
    [(u "++=", u "drel_runtime.aug_append"); (u "+=", u "drel_runtime.aug_add");
     (u "-=", u "drel_runtime.aug_sub"); (u "--=", u "drel_runtime.aug_remove")].
(** fix_mathops (868-880); None for the operators it does not know *)
Definition fix_mathops (op a b : str) : option str :=
  let call f := Some (sapp [f; u "("; a; u ","; b; u ")"]) in
  if str_eqb op (u "^") then call (u "numpy.cross")
  else if str_eqb op (u "*") then call (u "drel_runtime.drel_dot")
  else if str_eqb op (u "+") then call (u "drel_runtime.drel_add")
  else if str_eqb op (u "-") then call (u "numpy.subtract")
  else if str_eqb op (u "/") then call (u "numpy.true_divide")
  else None.
(** get_function_name (815-859): name, what goes before every argument, what follows
    (None: defined in the dictionary). *)
Definition builtins : list (str * str) :=
  [(u "table", u "dict"); (u "list", u "list"); (u "array", u "numpy.array"); (u "len", u "len");
   (u "abs", u "abs"); (u "magn", u "abs"); (u "atoi", u "int"); (u "float", u "float"); (u "str", u "str");
   (u "norm", u "numpy.linalg.norm"); (u "sqrt", u "math.sqrt"); (u "exp", u "math.exp");
   (u "complex", u "complex"); (u "max", u "max"); (u "min", u "min");
   (u "strip", u "drel_runtime.drel_strip"); (u "int", u "drel_runtime.drel_int");
   (u "eigen", u "drel_runtime.drel_eigen"); (u "hash", u "hash")].
Definition drop_last (s : str) : str := removelast s.   (* s[:-1] *)
Definition function_name (name : str) : str * str * option str :=
  let t := lower name in
  let is l := existsb (str_eqb t) l in
  match dget str_eqb t builtins with
  | Some f => (f, [], Some [])
  | None =>
      if is [u "sind"; u "cosd"; u "tand"] then (u "math." ++ drop_last t, u "math.radians(", Some (u ")"))
      else if is [u "acosd"; u "asind"; u "atand"; u "atan2d"] then (u "math.degrees(math." ++ drop_last t, [], Some (u ")"))
      else if is [u "mod"] then (u "divmod", [], Some (u "[1]"))
      else if is [u "upper"] then ([], [], Some (u ".upper()"))
      else if is [u "transpose"] then ([], [], Some (u ".T"))
      else if is [u "expimag"] then (u "cmath.exp", u "1j*(", Some (u ")"))
      else if is [u "real"; u "imag"] then ([], [], Some (u "." ++ t))
      else if is [u "matrix"] then (u "numpy.matrix", [], Some (u ".astype('float64')"))
      else if is [u "sort"] then ([], [], Some (u ".sort()"))
      else (name, [], None)
  end.
(** add_indent (885-887) *)
Definition add_indent (t : str) : str := flat_map (fun c => if N.eqb c 10 then 10%N :: repeat 32%N 4 else [c]) t.
Definition indented (t : str) : str := add_indent (nl ++ t).

(** ** traverse_ast *)
Definition tr := sp -> outcome (str * sp).
Definition tbind (m : tr) (f : str -> tr) : tr :=
  fun st => match m st with Ret (x, st1) => f x st1 | Raise e => Raise e end.
Definition tret (x : str) : tr := fun st => Ret (x, st).
Definition traise (e : exc) : tr := fun _ => Raise e.
Definition tmod (f : sp -> sp) (k : tr) : tr := fun st => k (f st).
(** out + t1 + "," + t2 + "," .. for the texts of a list of nodes *)
Section Loops.
  Context {A : Type} (f : A -> tr).
  Fixpoint commas (before : str) (out : str) (l : list A) : tr :=
    match l with
    | [] => tret out
    | a :: r => tbind (f a) (fun x => commas before (sapp [out; before; x; u ","]) r)
    end.
End Loops.

Definition is_true (o : option bool) : bool := match o with Some true => true | _ => false end.
(** LIST (306-318) after the element texts are known *)
Definition list_open (st : sp) : str := if is_true (s_rhs st) then u "StarList([" else [].
Definition list_close (st : sp) (out : str) : str :=
  if is_true (s_rhs st) then drop_last out ++ u "])" else drop_last out.

(** A loop or with variable, or a loop category (367-377). *)
Definition find_id (e : env) (primary : str) (st : sp) : option (str * str * bool) :=
  match dget str_eqb primary (s_ids st) with
  | Some x => Some x
  | None => if dmem str_eqb primary (e_loopable e) then Some (primary, [], false) else None
  end.
(** The keyed lookup of 378-385; [key] is the text of the subscript. *)
Definition keyed (e : env) (cat : str) (key : tr) : tr :=
  fun st =>
    match dget str_eqb cat (e_loopable e) with
    | None => Raise KeyErr
    | Some keys =>
        let names := map (fun s => lower (sapp [u "_"; cat; u "."; s])) keys in
        let st1 := fold_left (fun s k => depend k s) names st in
        tbind key (fun x => tmod (set_sub cat) (tret (semantic_packet x (squote cat)))) st1
    end.
(** special_info.get("target_id","").lower() *)
Definition target (e : env) : outcome str :=
  match e_target e with None => Raise AttributeErr | Some t => Ret (lower t) end.
(** ATTRIBUTE (422-473) after the primary: [atom] tells whether in_node[1] is an ATOM *)
Definition is_atom (a : ast) : bool := match a with AText _ | AAtom _ => true | _ => false end.
Definition use_with (name : str) (st : sp) : str * sp :=
  match dget str_eqb name (s_with st) with
  | Some (v, _, _) => (v, st)
  | None =>
      let n := length (s_with st) in
      let v := u "__w" ++ dec n in
      (v, set_with (s_with st ++ [(name, (v, n, s_inif st))]) st)
  end.
Definition attribute (e : env) (atom : bool) (primary att : str) : tr :=
  fun st =>
    match dget str_eqb primary (s_ids st) with
    | Some (cat, index, looping) =>
        obind (e_name e (lower cat) (lower att)) (fun nm =>
        let name := lower nm in
        obind (target e) (fun t =>
        if str_eqb name t then Ret (u "__dreltarget", set_have st)
        else if looping || match index with [] => true | _ => false end then
          let out := data_access (dquote name) in
          Ret (match index with [] => out | _ => sapp [out; u "["; index; u "]"] end, depend name st)
        else
          let (v, st1) := use_with name st in
          Ret (v, depend name st1)))
    | None =>
        match (if atom then match primary with [] => Raise IndexErr | c :: _ => Ret (N.eqb c 95) end else Ret false) with
        | Raise x => Raise x
        | Ret true =>
            obind (e_name e primary att) (fun nm =>
            let name := lower nm in
            obind (target e) (fun t =>
            if str_eqb t name then Ret (u "__dreltarget", set_have st)
            else Ret (data_access (squote name), depend name st)))
        | Ret false =>
            let found :=
              match dget str_eqb primary (s_packets st) with
              | Some cat => obind (e_name e cat att) (fun nm => Ret (nm, depend nm st))
              | None =>
                  match s_sub st with
                  | [] => Ret (att, st)
                  | cat => obind (e_name e cat att) (fun nm => Ret (nm, depend nm st))
                  end
              end in
            obind found (fun nst =>
            Ret (sapp [u "getattr("; primary; u ",'"; fst nst; u "')"], set_sub [] (snd nst)))
        end
    end.
(** WITH (572-586) *)
Definition with_alias (e : env) (alias cat : str) (st : sp) : sp :=
  let ids := match find (fun kv => str_eqb (fst (fst (snd kv))) cat) (s_ids st) with
             | Some kv => ddel str_eqb (fst kv) (s_ids st)
             | None => s_ids st
             end in
  let index := if dmem str_eqb cat (e_loopable e) then u "looped_cat" else [] in
  set_ids (dset str_eqb alias (cat, index, false) ids) st.
(** LOOP (591-636): the statements that find the rows, and the header of the loop. *)
Definition loop_text (e : env) (cat key index : str) (n : nat) (op var : str) : str :=
  sapp ([u "__pyallitems = "; e_names e (lower cat);
         nl; u "print('names in cat = %s' % repr(__pyallitems))";
         nl; u "__pycitems = [a for a in __pyallitems if "; has_name (u "a"); u "]";
         nl; u "print('names in cat -> %s' % repr(__pycitems))"; nl;
         u "if len(__pycitems)==0:"; nl;
         u "    __pydummy = "; data_access (squote key); nl;
         u "    __pycitems = [a for a in __pyallitems if "; has_name (u "a"); u "]"; nl;
         u "    print('After category creation, names in cat ->' + repr(__pycitems))"; nl;
         nl; u "__loop_range"; dec n; u " = range("; count_data (data_access (u "__pycitems[0]")); u ")"]
        ++ (match op with
            | [] => []
            | _ => [nl; u "__loop_range"; dec n; u " = [a for a in __loop_range"; dec n; u " if a "; op; u " "; var; u "]"]
            end)
        ++ [nl; u "for "; index; u " in __loop_range"; dec n; u ":"]).
Definition loop_index (idx : str) (n : nat) : str := match idx with [] => u "__pi" ++ dec n | _ => idx end.
(** ASSIGN (732-737): the texts of the right hand side, noting the packets. *)
Definition note_packet (lhs : list str) (order : nat) (st : sp) : outcome sp :=
  match s_sub st with
  | [] => Ret st
  | cat => match nth_error lhs order with
           | None => Raise IndexErr
           | Some v => Ret (set_sub [] (set_packets (dset str_eqb v cat (s_packets st)) st))
           end
  end.
Section Assign.
  Context (f : ast -> tr).
  Fixpoint texts (l : list ast) (st : sp) : outcome (list str * sp) :=
    match l with
    | [] => Ret ([], st)
    | a :: r => match f a st with
                | Raise x => Raise x
                | Ret (t, st1) => obind (texts r st1) (fun ts => Ret (t :: fst ts, snd ts))
                end
    end.
  Fixpoint right_side (lhs : list str) (order : nat) (out : str) (l : list ast) : tr :=
    match l with
    | [] => tret out
    | a :: r => tbind (f a) (fun t st =>
                match note_packet lhs order st with
                | Raise x => Raise x
                | Ret st1 => right_side lhs (S order) (sapp [out; t; u ","]) r st1
                end)
    end.
  Fixpoint fancy (e : env) (cat : str) (out : str) (l : list (str * ast)) : tr :=
    match l with
    | [] => tret out
    | (obj, a) :: r => fun st =>
        match e_name e cat obj with
        | Raise x => Raise x
        | Ret id => tbind (f a) (fun t =>
            fancy e cat (sapp [out; u "__dreltarget.update({'"; id; u "':__dreltarget.get('"; id; u "',[])+["; t; u "]})"; nl]) r) st
        end
    end.
  (* one_statement texts, each followed by an end of line (663-671, 688-692) *)
  Fixpoint lines (out : str) (l : list ast) : tr :=
    match l with
    | [] => tret out
    | a :: r => tbind (f a) (fun t => lines (sapp [out; t; nl]) r)
    end.
  Fixpoint elseifs (out : str) (l : list (ast * ast)) : tr :=
    match l with
    | [] => tret out
    | (c, s) :: r => tbind (f c) (fun ct => tbind (f s) (fun t =>
        elseifs (sapp [out; nl; u "elif "; ct; u ":"; indented t]) r))
    end.
  (* traverse_ast(x) for an element of a slice (335-341): the number 0 cannot be
     indexed, nor an empty list; a list that starts with a list is refused *)
  Definition slice_element (x : ael) : tr :=
    match x with
    | ElN a => f a
    | ElZero => traise TypeErr
    | ElL [] => traise IndexErr
    | ElL (ElZero :: _) => tret (u "Not found: ")
    | ElL _ => traise SyntaxErr
    end.
  Definition one_slice (s : asl) : tr :=
    match s with
    | SlE a => f a
    | SlL [] => traise IndexErr
    | SlL (x :: r) =>
        tbind (slice_element x) (fun t =>
        match r with
        | [] => tret (t ++ u ":")
        | y :: r2 => tbind (slice_element y) (fun t2 =>
            match r2 with
            | [z] => tbind (slice_element z) (fun t3 => tret (sapp [t; u ":"; t2; u ":"; t3]))
            | _ => tret (sapp [t; u ":"; t2])
            end)
        end)
    end.
End Assign.

Definition is_tag (a : ast) : option str := match a with AAtom (ATag s) => Some s | _ => None end.
Definition tail (s : str) : str := match s with [] => [] | _ :: r => r end.   (* s[1:] *)

(** MATHOP (766-774) after the operands *)
Definition mathop_text (op x y : str) : tr :=
  match mathop op with
  | None => traise KeyErr
  | Some (Some o) => tret (sapp [x; o; y])
  | Some None => match fix_mathops op x y with Some t => tret t | None => traise TypeErr end
  end.
(** FUNC_CALL (484-501); [args] are the texts with their prefix and comma *)
Definition call_close (fn : str * str * option str) (many : bool) (out : str) : str :=
  match snd fn with
  | None => out ++ u "ciffile)"
  | Some post =>
      let out1 := drop_last out in
      sapp [if str_eqb (fst (fst fn)) (u "list") && many then out1 ++ u "]" else out1; u ")"; post]
  end.
Definition call_open (fn : str * str * option str) (many : bool) : str :=
  sapp [fst (fst fn); u "( "; if str_eqb (fst (fst fn)) (u "list") && many then u "[" else []].

Section Traverse.
  Context (e : env).
  Fixpoint traverse (n : ast) : tr :=
    match n with
    | AText s =>                                                        (* 291-301 *)
        tret (if str_eqb (lower s) (u "twopi") then u "(2.0 * math.pi)"
              else if str_eqb (lower s) (u "pi") then u "math.pi" else s)
    | AAtom a => traverse a
    | ATag s => tret s
    | ALit s => tret s
    | AList [] => tret (u "StarList([])")                               (* 306-318 *)
    | AList l => fun st => tbind (commas traverse [] (list_open st) l) (fun out st1 => Ret (list_close st1 out, st1)) st
    | ATable [] => tret (u "StarTable({})")                             (* 319-326 *)
    | ATable l => tbind (commas (fun ke => tbind (traverse (snd ke)) (fun t => tret (sapp [fst ke; u ":"; t]))) [] (u "{") l)
                        (fun out => tret (drop_last out ++ u "}"))
    | AGroup l => tbind (commas traverse [] (u "(") l) (fun out => tret (drop_last out ++ u ")"))   (* 693-697 *)
    | AGroup0 => traise IndexErr
    | ACall f l =>                                                      (* 484-501 *)
        if str_eqb f (u "Current_Row") then tmod set_row (tret (u "__current_row"))
        else
          let fn := function_name f in
          let many := Nat.ltb 1 (length l) in
          tbind (commas traverse (snd (fst fn)) (call_open fn many) l) (fun out => tret (call_close fn many out))
    | ASub p x =>                                                       (* 364-389 *)
        match is_tag p with
        | Some s => keyed e (tail s) (traverse x)
        | None => tbind (traverse p) (fun primary st =>
            match find_id e primary st with
            | Some (cat, _, _) => keyed e cat (traverse x) st
            | None => tbind (traverse x) (fun t => tret (sapp [primary; u "["; t; u "]"])) st
            end)
        end
    | ASlice p l =>                                                     (* 330-345 *)
        tbind (traverse p) (fun primary =>
        tbind (commas (one_slice traverse) [] (primary ++ u "[") l) (fun out => tret (drop_last out ++ u "]")))
    | AAttr p s => tbind (traverse p) (fun primary => attribute e (is_atom p) primary s)
    | AMath op a b => tbind (traverse a) (fun x => tbind (traverse b) (fun y => mathop_text op x y))
    | ASign op a => tbind (traverse a) (fun x => tret (sapp [u "drel_runtime.drel_dot("; op; u "1,"; x; u ")"]))   (* 775-777 *)
    | AUnary op a => tbind (traverse a) (fun x => tret (sapp [op; u " "; x]))                                      (* 778-780 *)
    | AExpr a => traverse a
    | AStmts l => lines traverse [] l
    | AExprs l => lines traverse [] l
    | APrint a => tbind (traverse a) (fun x => tret (sapp [u "print( "; x; u ")"]))
    | ABreak => tret (u "break ")
    | ANext => tret (u "continue ")
    | AAssign lhs op rhs =>                                             (* 724-748 *)
        fun st =>
        match texts traverse lhs (set_rhs (Some false) st) with
        | Raise x => Raise x
        | Ret (vs, st1) =>
            let left := drop_last (concat (map (fun v => v ++ u ",") vs)) in
            tbind (right_side traverse vs 0 [] rhs) (fun r =>
            if str_eqb op (u "=") then tmod (set_rhs None) (tret (sapp [left; u " = "; drop_last r]))
            else match aug_assign op with
                 | None => traise KeyErr
                 | Some f => tmod (set_rhs None) (tret (sapp [left; u " = "; f; u "("; left; u ","; drop_last r; u ")"]))
                 end) (set_rhs (Some true) st1)
        end
    | AFancy cat l => tmod (set_rhs (Some true)) (tbind (fancy traverse e cat [] l) (fun out => tmod (set_rhs None) (tret out)))   (* 749-758 *)
    | AIf c s elifs els =>                                              (* 513-531 *)
        tbind (traverse c) (fun ct st =>
        let old := s_inif st in
        tbind (traverse s) (fun t =>
        tbind (elseifs traverse (sapp [u "if "; ct; u ":"; indented t]) elifs) (fun out =>
        match els with
        | None => tmod (set_inif old) (tret out)
        | Some b => tbind (traverse b) (fun t2 => tmod (set_inif old) (tret (sapp [out; nl; u "else:"; indented t2])))
        end)) (set_inif true st))
    | ADo id a b c s =>                                                 (* 535-542 *)
        tbind (traverse a) (fun t1 => tbind (traverse b) (fun t2 => tbind (traverse c) (fun t3 =>
        tbind (traverse s) (fun t =>
        tret (sapp [u "for "; id; u " in range("; t1; u ","; t2; u "+1,"; t3; u "):"; indented t])))))
    | AFor ids l s =>                                                   (* 543-553 *)
        let head := drop_last (u "for " ++ concat (map (fun v => v ++ u ",") ids)) ++ u " in " in
        tmod (set_rhs (Some true))
        (tbind (commas (fun a => tbind (traverse a) (fun t => tret (t ++ u ")"))) (u "copy(") head l) (fun out =>
        tmod (set_rhs None)
        (tbind (traverse s) (fun t => tret (sapp [drop_last out; u ":"; indented t])))))
    | ARepeat s => tbind (traverse s) (fun t => tret (sapp [u "while True:"; indented t]))
    | AWith alias cat s => tmod (with_alias e alias cat) (traverse s)
    | ALoop alias cat idx op var s =>                                   (* 591-636 *)
        if negb (dmem str_eqb cat (e_loopable e)) then traise CifErr
        else fun st =>
          let n := S (length (s_ids st)) in
          let index := loop_index idx n in
          let st1 := set_ids (dset str_eqb alias (cat, index, true) (s_ids st)) st in
          match e_key e cat with
          | Raise x => Raise x
          | Ret key =>
              tbind (traverse s) (fun t => tret (loop_text e cat key index n op var ++ indented t)) (depend key st1)
          end
    | AFunc f args s =>                                                 (* 647-658 *)
        tbind (traverse s) (fun t =>
        tret (sapp [u "def "; f; u " ("; concat (map (fun a => a ++ u ",") args); u "ciffile):";
                    indented (sapp [t; nl; u "return "; f])]))
    end.
End Traverse.
