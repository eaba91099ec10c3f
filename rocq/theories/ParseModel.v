(** The recursive-descent parsers generated from src/YappsStarParser.nw 337-567:
    text fields, values, loops, data items, save frames, data blocks.  The lookahead
    sets are those computed by yapps (first and follow sets as in
    src/yapps3/parsetree.py 438-645).  The parser's actions that build blocks
    (NewBlock, AddItem, makeloop, merge_fast) are applied to the result of parsing
    (see [ReadModel] and [CollectionModel]) instead of during parsing; so only the
    kind of exception may differ when a file has several errors.  No proofs here. *)
From Coq Require Import String Ascii List NArith ZArith Bool.
From Verif Require Import PyBase RegexModel FoldModel ScanModel ReadModel.
Import ListNotations.

(** stripextras (80-101). *)
Definition re_ws : re := RStar (one_of [10; 13; 12; 32; 9; 11]%N).
Definition re_semis : re := rseq [re_ws; one_of [10; 13; 12]%N; RStar (is 10); is 59].
Definition drop_cr (s : str) : str := if last_is 13 s then removelast s else s.
Definition stripextras (s : str) : str :=
  match re_match re_semis s with
  | Some (cut, _) =>
      remove_line_folding (remove_line_prefix (drop_cr (py_slice (length cut) (length s - 2) s)))
  | None =>
      match re_match re_ws s with
      | Some (_, rest) => stripstring rest
      | None => s
      end
  end.

(** rule sc_lines_of_text (385-389, 533-537): the concatenation of the tokens. *)
Fixpoint sc_rest (fuel : nat) (g : grammar) (acc : str) (st : pstate) : outcome (str * pstate) :=
  obind (peek g [ScLine; EndSc] st) (fun x =>
  match x with (t, st1) =>
    if tok_eqb t ScLine then
      match fuel with
      | O => Raise OutOfFuel
      | Datatypes.S f => obind (take g ScLine st1) (fun y => sc_rest f g (acc ++ fst y) (snd y))
      end
    else obind (take g EndSc st1) (fun y => Ret (acc ++ fst y, snd y))
  end).
Definition sc_lines (g : grammar) (st : pstate) : outcome (str * pstate) :=
  obind (take g StartSc st) (fun x => sc_rest (length (p_inp (snd x))) g (fst x) (snd x)).

(** First set of data_value. *)
Definition value_first (g : grammar) : list tok :=
  match g with
  | G10 | G11 => [Value1; StartSc]
  | G20 | GS2 => [Value1; TripleQ; SingleQ; StartSc; OSquare; OCurl]
  end.

(** The python dictionary built from key-value pairs. *)
Fixpoint pairs_dict (l : list (str * value)) (d : list (str * value)) : list (str * value) :=
  match l with
  | [] => d
  | (k, v) :: l' => pairs_dict l' (dset str_eqb k v d)
  end.

(** rule delimited_data_value (380-383). *)
Definition delimited (g : grammar) (st : pstate) : outcome (str * pstate) :=
  obind (peek g [TripleQ; SingleQ] st) (fun x =>
  match x with (t, st1) =>
    if tok_eqb t TripleQ then obind (take g TripleQ st1) (fun y => Ret (striptriple (fst y), snd y))
    else if tok_eqb t SingleQ then obind (take g SingleQ st1) (fun y => Ret (stripstring (fst y), snd y))
    else Raise SyntaxErr
  end).

(** Every [( ... )*] of a rule is followed by a check that the next token is in
    the follow set (parsetree.py 642-645). *)
Definition expect (follow : list tok) (t : tok) : bool := tmem t follow.

(** Value rules (371-397, 437-485, 528-531).  [value_go] is data_value; [list_go]
    the body of square_bracket_expr after its opening bracket, in reverse order of
    elements; [table_go] that of curly_bracket_expr.  In square_bracket_expr the
    inner repetition is over values (CIF2) or comma and value (STAR2), and the
    outer one starts again at a value; in curly_bracket_expr the list of pairs is
    started afresh by the outer repetition. *)
Fixpoint value_go (fuel : nat) (g : grammar) (st : pstate) : outcome (value * pstate) :=
  match fuel with
  | O => Raise OutOfFuel
  | Datatypes.S f =>
    obind (peek g (value_first g) st) (fun x =>
    match x with (t, st1) =>
      match t with
      | Value1 =>
          obind (take g Value1 st1) (fun y =>
          Ret (VStr (match g with G10 | G11 => stripstring (fst y) | _ => fst y end), snd y))
      | StartSc => obind (sc_lines g st1) (fun y => Ret (VStr (stripextras (fst y)), snd y))
      | TripleQ | SingleQ => obind (delimited g st1) (fun y => Ret (VStr (fst y), snd y))
      | OSquare =>
          obind (take g OSquare st1) (fun y =>
          obind (list_go f g false [] (snd y)) (fun z => Ret (VSL (rev (fst z)), snd z)))
      | OCurl =>
          obind (take g OCurl st1) (fun y =>
          obind (table_go f g false [] (snd y)) (fun z => Ret (VDict (pairs_dict (rev (fst z)) []), snd z)))
      | _ => Raise SyntaxErr
      end
    end)
  end
(** [inner] tells whether we are in the inner repetition (after a first value). *)
with list_go (fuel : nat) (g : grammar) (inner : bool) (acc : list value) (st : pstate)
     : outcome (list value * pstate) :=
  match fuel with
  | O => Raise OutOfFuel
  | Datatypes.S f =>
    let follow := match g with GS2 => Comma :: CSquare :: value_first g | _ => CSquare :: value_first g end in
    obind (peek g follow st) (fun x =>
    match x with (t, st1) =>
      if negb (expect follow t) then Raise SyntaxErr
      else if inner && tok_eqb t Comma then
        obind (take g Comma st1) (fun y =>
        obind (value_go f g (snd y)) (fun z => list_go f g true (fst z :: acc) (snd z)))
      else if expect (value_first g) t then
        obind (value_go f g st1) (fun z => list_go f g true (fst z :: acc) (snd z))
      else obind (take g CSquare st1) (fun y => Ret (acc, snd y))
    end)
  end
with table_go (fuel : nat) (g : grammar) (inner : bool) (acc : list (str * value)) (st : pstate)
     : outcome (list (str * value) * pstate) :=
  match fuel with
  | O => Raise OutOfFuel
  | Datatypes.S f =>
    let follow := match g with GS2 => [Comma; CCurl; TripleQ; SingleQ] | _ => [CCurl; TripleQ; SingleQ] end in
    obind (peek g follow st) (fun x =>
    match x with (t, st1) =>
      if negb (expect follow t) then Raise SyntaxErr
      else if inner && tok_eqb t Comma then
        obind (take g Comma st1) (fun y =>
        obind (delimited g (snd y)) (fun k =>
        obind (take g Colon (snd k)) (fun c =>
        obind (value_go f g (snd c)) (fun z => table_go f g true ((fst k, fst z) :: acc) (snd z)))))
      else if expect [TripleQ; SingleQ] t then
        obind (delimited g st1) (fun k =>
        obind (take g Colon (snd k)) (fun c =>
        obind (value_go f g (snd c)) (fun z =>
        (* CIF2: the inner repetition goes on; STAR2: without a comma the outer one
           starts a new list of pairs *)
        table_go f g true ((fst k, fst z) :: (match g with GS2 => [] | _ => acc end)) (snd z))))
      else obind (take g CCurl st1) (fun y => Ret (acc, snd y))
    end)
  end.
(** Text left, the token looked at included. *)
Definition size (st : pstate) : nat :=
  length (p_inp st) + match p_pend st with Some (_, m, _) => length m | None => 0%nat end.
Definition data_value (g : grammar) (st : pstate) : outcome (value * pstate) :=
  value_go (Datatypes.S (2 * size st)) g st.

(** What may follow a value in a loop, or an item (first and follow sets). *)
Definition item_follow : list tok := [LBlock; DataName; SaveHeading; SaveEnd; DataHeading; End].

(** rule loopfield (403-407, 547-551). *)
Fixpoint loop_fields (fuel : nat) (g : grammar) (acc : list str) (st : pstate) : outcome (list str * pstate) :=
  let follow := DataName :: value_first g in
  obind (peek g follow st) (fun x =>
  match x with (t, st1) =>
    if tok_eqb t DataName then
      match fuel with
      | O => Raise OutOfFuel
      | Datatypes.S f => obind (take g DataName st1) (fun y => loop_fields f g (acc ++ [fst y]) (snd y))
      end
    else if expect follow t then Ret (acc, st1) else Raise SyntaxErr
  end).
(** rule loopvalues (410-415, 554-559), after the first value. *)
Fixpoint loop_values (fuel : nat) (g : grammar) (acc : list value) (st : pstate) : outcome (list value * pstate) :=
  let follow := value_first g ++ item_follow in
  obind (peek g follow st) (fun x =>
  match x with (t, st1) =>
    if expect (value_first g) t then
      match fuel with
      | O => Raise OutOfFuel
      | Datatypes.S f => obind (data_value g st1) (fun y => loop_values f g (acc ++ [fst y]) (snd y))
      end
    else if expect follow t then Ret (acc, st1) else Raise SyntaxErr
  end).

(** rules data, datakvpair, top_loop (365-369, 399, 522-526, 542). *)
Definition data_item (g : grammar) (st : pstate) : outcome (item * pstate) :=
  obind (peek g [LBlock; DataName] st) (fun x =>
  match x with (t, st1) =>
    if tok_eqb t LBlock then
      obind (take g LBlock st1) (fun a =>
      obind (loop_fields (size (snd a)) g [] (snd a)) (fun n =>
      obind (data_value g (snd n)) (fun v =>
      obind (loop_values (size (snd v)) g [fst v] (snd v)) (fun vs =>
      Ret (Lp (fst n) (fst vs), snd vs)))))
    else if tok_eqb t DataName then
      obind (take g DataName st1) (fun n =>
      obind (data_value g (snd n)) (fun v => Ret (Kv (fst n) (fst v), snd v)))
    else Raise SyntaxErr
  end).

(** rule dataseq (360-363, 517-520): one item, then items as long as they come. *)
Fixpoint data_more (fuel : nat) (g : grammar) (acc : list item) (st : pstate) : outcome (list item * pstate) :=
  obind (peek g item_follow st) (fun x =>
  match x with (t, st1) =>
    if expect [LBlock; DataName] t then
      match fuel with
      | O => Raise OutOfFuel
      | Datatypes.S f => obind (data_item g st1) (fun y => data_more f g (acc ++ [fst y]) (snd y))
      end
    else if expect item_follow t then Ret (acc, st1) else Raise SyntaxErr
  end).
Definition data_seq (g : grammar) (st : pstate) : outcome (list item * pstate) :=
  obind (data_item g st) (fun y => data_more (size (snd y)) g [fst y] (snd y)).

(** Contents of a data block or save frame, in input order. *)
Inductive content :=
| CItems (l : list item)
| CFrame (name : str) (l : list content).

(** rules save_frame (417-423, 430-435, 460-464, 561-567) and the body of dblock
    (352-358, 508-515).  CIF2 has no nested save frames. *)
Fixpoint contents (fuel : nat) (g : grammar) (in_frame : bool) (st : pstate) : outcome (list content * pstate) :=
  match fuel with
  | O => Raise OutOfFuel
  | Datatypes.S f =>
    obind (peek g item_follow st) (fun x =>
    match x with (t, st1) =>
      if expect [LBlock; DataName] t then
        obind (data_seq g st1) (fun y =>
        obind (contents f g in_frame (snd y)) (fun z => Ret (CItems (fst y) :: fst z, snd z)))
      else if tok_eqb t SaveHeading && negb (in_frame && match g with G20 => true | _ => false end) then
        obind (take g SaveHeading st1) (fun h =>
        obind (contents f g true (snd h)) (fun y =>
        obind (take g SaveEnd (snd y)) (fun e =>
        obind (contents f g in_frame (snd e)) (fun z =>
        Ret (CFrame (skipn 5 (fst h)) (fst y) :: fst z, snd z)))))
      else if expect item_follow t then Ret ([], st1) else Raise SyntaxErr
    end)
  end.

Record dblock := DBlock { d_name : str; d_contents : list content }.
(** rule dblock (352-358, 508-515); the heading without its data_ (5 characters). *)
Definition parse_dblock (g : grammar) (st : pstate) : outcome (dblock * pstate) :=
  obind (take g DataHeading st) (fun h =>
  obind (contents (Datatypes.S (size (snd h))) g false (snd h)) (fun y =>
  Ret (DBlock (skipn 5 (fst h)) (fst y), snd y))).
(** rule input (340-350, 496-506). *)
Fixpoint parse_more (fuel : nat) (g : grammar) (acc : list dblock) (st : pstate) : outcome (list dblock) :=
  obind (peek g [DataHeading; End] st) (fun x =>
  match x with (t, st1) =>
    if tok_eqb t DataHeading then
      match fuel with
      | O => Raise OutOfFuel
      | Datatypes.S f => obind (parse_dblock g st1) (fun y => parse_more f g (acc ++ [fst y]) (snd y))
      end
    else obind (take g End st1) (fun _ => Ret acc)
  end).
Definition parse_file (g : grammar) (s : str) : outcome (list dblock) :=
  parse_more (length s) g [] (PS s None).
