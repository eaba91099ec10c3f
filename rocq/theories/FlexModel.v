(** Model of the compiled scanner: the flex rules of src/lib/star.l (lines 41-164), the
    calls in src/lib/py_star_scan.c (60-150) and compiled_token
    (src/yapps3_compiled_rt.py 186-190), and of the parsers of grammars 1.0 and 1.1
    reading its tokens.  It is used for scantype='flex' (src/StarFile.nw 1123).

    Flex takes the longest match, trailing context included, and among equals the rule
    that is written first.  The rules before <Alltext> belong to the start condition
    INITIAL only, because Alltext is exclusive (%x).

    Simplifications: the C scanner works on the bytes of the text in UTF-8, here on its
    characters; the two are the same for ASCII, and nothing is claimed beyond.  A text ends at
    its first NUL (strlen, py_star_scan.c 75).  After an unexpected character the
    scanner throws away its buffer; every parser stops at that token, so the rest is
    taken to be empty.  Line numbers are left out.  No proofs here. *)
From Coq Require Import String Ascii List NArith ZArith Bool.
From Verif Require Import PyBase RegexModel ScanModel ReadModel ParseModel.
Import ListNotations.

(** Definitions (star.l 41-69).  TrueNonBlank and TrueChar (62, 59) *)
Definition true_nonblank (c : N) : bool :=
  existsb (N.eqb c) (u "][!%&()*+,./:<=>?@") || ((48 <=? c) && (c <=? 57))%N || ((65 <=? c) && (c <=? 90))%N
  || ((97 <=? c) && (c <=? 122))%N || existsb (N.eqb c) (u "\^`{}|~""#$';_-").
Definition true_char (c : N) : bool := true_nonblank c || (c =? 32)%N || (c =? 9)%N.
(** Spaces, Comment, EndOfLine (67-69) *)
Definition fx_spaces : re := RStar (one_of [9; 32]%N).
Definition fx_comment : re := RSeq (is 35) (RStar (none_of [10; 13]%N)).
Definition fx_eol : re := RAlt (is 10) (RAlt (is 13) (RSeq (is 13) (is 10))).
Definition fx_end_of_line : re := RSeq fx_spaces (RSeq (ropt fx_comment) fx_eol).
Definition fx_eols : re := rplus (RAlt (RSeq (is 13) (is 10)) (RAlt (is 13) (is 10))).

(** What a rule does. *)
Inductive action :=
| ATok (t : tok)
| ASkip
| AQuote (q : N)                (* 97-145 *)
| AError.
(** Expression, trailing context of one character, action. *)
Record rule := Rule { r_re : re; r_trail : option re; r_act : action }.
Inductive start := Initial | Alltext.

(** The rules (79-154).  That of the NUL character (147) is left out, see above. *)
Definition initial_rules : list rule :=
  [ Rule (word_ci (u "LOOP_")) None (ATok LBlock);
    Rule (word_ci (u "GLOBAL_")) None (ATok Global);
    Rule (word_ci (u "STOP_")) None (ATok Stop);
    Rule (RSeq (word_ci (u "SAVE_")) (rplus (RChr true_nonblank))) None (ATok SaveHeading);
    Rule (word_ci (u "SAVE_")) None (ATok SaveEnd);
    Rule (RSeq (word_ci (u "DATA_")) (rplus (RChr true_nonblank))) None (ATok DataHeading);
    Rule (RSeq (is 95) (rplus (RChr true_nonblank))) None (ATok DataName);
    Rule fx_spaces None ASkip;
    Rule fx_comment None ASkip;
    Rule fx_end_of_line (Some (none_of [59]%N)) ASkip;
    Rule (rseq [RAlt (is 10) (RSeq (is 13) (is 10)); is 59; RStar (RChr true_char); fx_eols]) None (ATok StartSc);
    Rule (RSeq (none_of (10 :: 13 :: 9 :: 32 :: 0 :: u """#$'_[]")%N) (RStar (RChr true_nonblank))) None (ATok Value1);
    Rule (rseq [is 39; RStar (RChr true_char); is 39]) None (AQuote 39);
    Rule (rseq [is 34; RStar (RChr true_char); is 34]) None (AQuote 34);
    Rule (is 10) None ASkip;
    Rule rdot None AError ].
(** The last one is the rule that flex adds: an unmatched character is printed. *)
Definition alltext_rules : list rule :=
  [ Rule (rseq [none_of [59; 13; 10]%N; RStar (RChr true_char); fx_eols]) None (ATok ScLine);
    Rule (is 59) None (ATok EndSc);
    Rule (RChr (fun _ => true)) None ASkip ].
Definition rules (c : start) : list rule := match c with Initial => initial_rules | Alltext => alltext_rules end.
(** BEGIN (90, 92) *)
Definition after (t : tok) (c : start) : start := match t with StartSc => Alltext | EndSc => Initial | _ => c end.

(** The longest match of an expression. *)
Definition longer (best : option (str * str)) (x : str * str) : option (str * str) :=
  match best with
  | Some (m0, _) => if (length m0 <? length (fst x))%nat then Some x else best
  | None => Some x
  end.
Definition longest (r : re) (s : str) : option (str * str) := fold_left longer (rmatch r s) None.
(** ... of a rule: its whole length, the text it takes and the rest. *)
Definition rule_match (ru : rule) (s : str) : option (nat * str * str) :=
  match r_trail ru with
  | None => match longest (r_re ru) s with Some (m, r) => Some (length m, m, r) | None => None end
  | Some b =>
      match longest (RSeq (r_re ru) b) s with
      | Some (m, r) => Some (length m, removelast m, skipn (length m - 1) m ++ r)
      | None => None
      end
  end.
Fixpoint best_rule (rs : list rule) (s : str) (best : option (action * nat * str * str)) : option (action * nat * str * str) :=
  match rs with
  | [] => best
  | ru :: rest =>
      best_rule rest s
        (match rule_match ru s with
         | Some (n, m, r) =>
             match best with
             | Some (_, n0, _, _) => if (n0 <? n)%nat then Some (r_act ru, n, m, r) else best
             | None => Some (r_act ru, n, m, r)
             end
         | None => best
         end)
  end.

(** The action of the quotes (97-120, 122-145): the value ends at the first quote
    before a blank, and what follows is given back (yyless). *)
Definition c_space (c : N) : bool := ((9 <=? c) && (c <=? 13))%N || (c =? 32)%N.
Fixpoint quote_end (q : N) (m : str) : str * str :=
  match m with
  | [] => ([], [])
  | c :: m' =>
      if (c =? q)%N && match m' with d :: _ => c_space d | [] => false end then ([c], m')
      else (c :: fst (quote_end q m'), snd (quote_end q m'))
  end.
Definition quoted (q : N) (m : str) : str * str :=
  match m with [] => ([], []) | c :: m' => (c :: fst (quote_end q m'), snd (quote_end q m')) end.

(** star_scanner: the next token, None for the token (error); its text; the start
    condition and the text after it.  At the end flex returns 0, which is END. *)
Fixpoint flex_go (fuel : nat) (c : start) (s : str) : outcome (option tok * str * start * str) :=
  match s with
  | [] => Ret (Some End, [], c, [])
  | _ =>
      match fuel with
      | O => Raise OutOfFuel
      | Datatypes.S f =>
          match best_rule (rules c) s None with
          | Some (ATok t, _, m, r) => Ret (Some t, m, after t c, r)
          | Some (ASkip, _, _, r) => flex_go f c r
          | Some (AQuote q, _, m, r) => Ret (Some Value1, fst (quoted q m), c, snd (quoted q m) ++ r)
          | Some (AError, _, m, _) => Ret (None, m, c, [])
          | None => Raise OutOfFuel                    (* never: some rule matches *)
          end
      end
  end.
Definition flex_scan (c : start) (s : str) : outcome (option tok * str * start * str) := flex_go (length s) c s.

(** The parser's state: the text left, the start condition, the token looked at. *)
Record fstate := FS { f_inp : str; f_start : start; f_pend : option (option tok * str) }.
(** token (py_star_scan.c 131-142): restrictions are not looked at. *)
Definition f_token (st : fstate) : outcome (option tok * str * fstate) :=
  match f_pend st with
  | Some (t, m) => Ret (t, m, st)
  | None => obind (flex_scan (f_start st) (f_inp st)) (fun x =>
            match x with (t, m, c, r) => Ret (t, m, FS r c (Some (t, m))) end)
  end.
(** _peek and _scan (yapps3_compiled_rt.py 277-289) *)
Definition f_peek (st : fstate) : outcome (option tok * fstate) :=
  obind (f_token st) (fun x => match x with (t, _, st') => Ret (t, st') end).
Definition is_tok (t : tok) (x : option tok) : bool := match x with Some y => tok_eqb y t | None => false end.
Definition f_take (t : tok) (st : fstate) : outcome (str * fstate) :=
  obind (f_token st) (fun x =>
  match x with (t', m, st') => if is_tok t t' then Ret (m, FS (f_inp st') (f_start st') None) else Raise SyntaxErr end).
Definition f_expect (follow : list tok) (t : option tok) : bool := match t with Some y => tmem y follow | None => false end.

(** The rules of grammars 1.0 and 1.1 (src/YappsStarParser.nw 496-567), as in
    ParseModel.v. *)
Fixpoint f_sc_rest (fuel : nat) (acc : str) (st : fstate) : outcome (str * fstate) :=
  obind (f_peek st) (fun x =>
  match x with (t, st1) =>
    if is_tok ScLine t then
      match fuel with
      | O => Raise OutOfFuel
      | Datatypes.S f => obind (f_take ScLine st1) (fun y => f_sc_rest f (acc ++ fst y) (snd y))
      end
    else obind (f_take EndSc st1) (fun y => Ret (acc ++ fst y, snd y))
  end).
Definition f_sc_lines (st : fstate) : outcome (str * fstate) :=
  obind (f_take StartSc st) (fun x => f_sc_rest (length (f_inp (snd x))) (fst x) (snd x)).
Definition f_value (st : fstate) : outcome (value * fstate) :=
  obind (f_peek st) (fun x =>
  match x with (t, st1) =>
    if is_tok Value1 t then obind (f_take Value1 st1) (fun y => Ret (VStr (stripstring (fst y)), snd y))
    else if is_tok StartSc t then obind (f_sc_lines st1) (fun y => Ret (VStr (stripextras (fst y)), snd y))
    else Raise SyntaxErr
  end).
Definition f_size (st : fstate) : nat :=
  length (f_inp st) + match f_pend st with Some (_, m) => length m | None => 0%nat end.
Definition v_first : list tok := [Value1; StartSc].
Fixpoint f_loop_fields (fuel : nat) (acc : list str) (st : fstate) : outcome (list str * fstate) :=
  obind (f_peek st) (fun x =>
  match x with (t, st1) =>
    if is_tok DataName t then
      match fuel with
      | O => Raise OutOfFuel
      | Datatypes.S f => obind (f_take DataName st1) (fun y => f_loop_fields f (acc ++ [fst y]) (snd y))
      end
    else if f_expect (DataName :: v_first) t then Ret (acc, st1) else Raise SyntaxErr
  end).
Fixpoint f_loop_values (fuel : nat) (acc : list value) (st : fstate) : outcome (list value * fstate) :=
  obind (f_peek st) (fun x =>
  match x with (t, st1) =>
    if f_expect v_first t then
      match fuel with
      | O => Raise OutOfFuel
      | Datatypes.S f => obind (f_value st1) (fun y => f_loop_values f (acc ++ [fst y]) (snd y))
      end
    else if f_expect (v_first ++ item_follow) t then Ret (acc, st1) else Raise SyntaxErr
  end).
Definition f_data_item (st : fstate) : outcome (item * fstate) :=
  obind (f_peek st) (fun x =>
  match x with (t, st1) =>
    if is_tok LBlock t then
      obind (f_take LBlock st1) (fun a =>
      obind (f_loop_fields (f_size (snd a)) [] (snd a)) (fun n =>
      obind (f_value (snd n)) (fun v =>
      obind (f_loop_values (f_size (snd v)) [fst v] (snd v)) (fun vs =>
      Ret (Lp (fst n) (fst vs), snd vs)))))
    else if is_tok DataName t then
      obind (f_take DataName st1) (fun n =>
      obind (f_value (snd n)) (fun v => Ret (Kv (fst n) (fst v), snd v)))
    else Raise SyntaxErr
  end).
Fixpoint f_data_more (fuel : nat) (acc : list item) (st : fstate) : outcome (list item * fstate) :=
  obind (f_peek st) (fun x =>
  match x with (t, st1) =>
    if f_expect [LBlock; DataName] t then
      match fuel with
      | O => Raise OutOfFuel
      | Datatypes.S f => obind (f_data_item st1) (fun y => f_data_more f (acc ++ [fst y]) (snd y))
      end
    else if f_expect item_follow t then Ret (acc, st1) else Raise SyntaxErr
  end).
Definition f_data_seq (st : fstate) : outcome (list item * fstate) :=
  obind (f_data_item st) (fun y => f_data_more (f_size (snd y)) [fst y] (snd y)).
Fixpoint f_contents (fuel : nat) (st : fstate) : outcome (list content * fstate) :=
  match fuel with
  | O => Raise OutOfFuel
  | Datatypes.S f =>
    obind (f_peek st) (fun x =>
    match x with (t, st1) =>
      if f_expect [LBlock; DataName] t then
        obind (f_data_seq st1) (fun y =>
        obind (f_contents f (snd y)) (fun z => Ret (CItems (fst y) :: fst z, snd z)))
      else if is_tok SaveHeading t then
        obind (f_take SaveHeading st1) (fun h =>
        obind (f_contents f (snd h)) (fun y =>
        obind (f_take SaveEnd (snd y)) (fun e =>
        obind (f_contents f (snd e)) (fun z =>
        Ret (CFrame (skipn 5 (fst h)) (fst y) :: fst z, snd z)))))
      else if f_expect item_follow t then Ret ([], st1) else Raise SyntaxErr
    end)
  end.
Definition f_dblock (st : fstate) : outcome (dblock * fstate) :=
  obind (f_take DataHeading st) (fun h =>
  obind (f_contents (Datatypes.S (f_size (snd h))) (snd h)) (fun y =>
  Ret (DBlock (skipn 5 (fst h)) (fst y), snd y))).
Fixpoint f_more (fuel : nat) (acc : list dblock) (st : fstate) : outcome (list dblock) :=
  obind (f_peek st) (fun x =>
  match x with (t, st1) =>
    if is_tok DataHeading t then
      match fuel with
      | O => Raise OutOfFuel
      | Datatypes.S f => obind (f_dblock st1) (fun y => f_more f (acc ++ [fst y]) (snd y))
      end
    else obind (f_take End st1) (fun _ => Ret acc)
  end).
(** star_clear (star.l 160-164) sets the start condition back. *)
Fixpoint until_nul (s : str) : str := match s with [] => [] | c :: s' => if (c =? 0)%N then [] else c :: until_nul s' end.
Definition flex_file (s : str) : outcome (list dblock) := f_more (length (until_nul s)) [] (FS (until_nul s) Initial None).
