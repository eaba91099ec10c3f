(** The yapps scanner (src/yapps3_compiled_rt.py) and the token definitions of
    the four grammars (src/YappsStarParser.nw 215-302).  No proofs here. *)
From Coq Require Import String Ascii List NArith ZArith Bool.
From Verif Require Import PyBase RegexModel.
Import ListNotations.

(** Grammars '1.0', '1.1', '2.0' and 'STAR2'. *)
Inductive grammar := G10 | G11 | G20 | GS2.

(** Token names.  [Comma] and [Colon] are the literal tokens of the bracket
    rules, [Ign1] and [Ign2] the two ignore patterns. *)
Inductive tok :=
| Colon | Comma | Ign1 | Ign2 | LBlock | Global | Stop | SaveHeading | SaveEnd | DataName | DataHeading
| StartSc | ScLine | EndSc | CCurl | OCurl | CSquare | OSquare | InternalSq | TripleQ | SingleQ | Value1 | End.

Definition tok_eq_dec (a b : tok) : {a = b} + {a <> b}.
Proof. decide equality. Defined.
Definition tok_eqb (a b : tok) : bool := if tok_eq_dec a b then true else false.
Definition tmem (t : tok) (l : list tok) : bool := existsb (tok_eqb t) l.

(** (L|l)(O|o)...: a word in either case, given in capitals; anything that is
    not a capital letter stands for itself. *)
Definition either_case (c : N) : re := if ((65 <=? c) && (c <=? 90))%N then letter c else is c.
Definition word_ci (w : str) : re := rseq (map either_case w).

(** The class of data_name, data_heading and save_heading in 1.0/1.1 (271-274):
    every printable ASCII character except the blank. *)
Definition name_char1 (c : N) : bool :=
  existsb (N.eqb c) (u "][!%&()*+,./:<=>?@") || ((48 <=? c) && (c <=? 57))%N || ((65 <=? c) && (c <=? 90))%N
  || ((97 <=? c) && (c <=? 122))%N || existsb (N.eqb c) (u "\^`{}|~""#$';_-").
(** Additional ranges in CIF2/STAR2 (229-232). *)
Definition name_char2 (c : N) : bool :=
  (name_char1 c || ((0xA0 <=? c) && (c <=? 0xD7FF)) || ((0xE000 <=? c) && (c <=? 0xFDCF))
   || ((0xFDF0 <=? c) && (c <=? 0xFFFD))
   || ((0x10000 <=? c) && (c <=? 0x10FFFD) && ((c mod 0x10000) <=? 0xFFFD)))%N.
Definition name_char (g : grammar) : N -> bool :=
  match g with G10 | G11 => name_char1 | G20 | GS2 => name_char2 end.

Definition ns : N -> bool := fun c => negb (is_space c).      (* [^\s] and \S *)
Definition not_in (cs : str) : N -> bool := fun c => negb (existsb (N.eqb c) cs).

(** (?!save_...|global_...|stop_...|data_...) *)
Definition reserved : re :=
  RAlt (RSeq (word_ci (u "SAVE_")) (RStar (RChr ns)))
  (RAlt (RSeq (word_ci (u "GLOBAL_")) (RStar (RChr ns)))
  (RAlt (RSeq (word_ci (u "STOP_")) (RStar (RChr ns)))
        (RSeq (word_ci (u "DATA_")) (RStar (RChr ns))))).

(** First and further characters of an undelimited value (218, 258, 280, 301). *)
Definition plain_first (g : grammar) : N -> bool :=
  fun c => ns c && match g with
                   | G10 => not_in (u """#$'_") c
                   | G11 => not_in (u """#$'_{[]") c
                   | G20 => not_in (u """#$'_{}[]") c
                   | GS2 => not_in (u """#$',_{}[]") c
                   end.
Definition plain_next (g : grammar) : N -> bool :=
  fun c => ns c && match g with
                   | G10 | G11 => true
                   | G20 => not_in (u "{}[]") c
                   | GS2 => not_in (u ",{}[]") c
                   end.
Definition re_plain (g : grammar) : re :=
  RSeq (RNot reserved) (RSeq (RChr (plain_first g)) (RStar (RChr (plain_next g)))).

(** Quoted values of CIF1: a quote inside counts as content if a non-blank
    follows it (280). *)
Definition re_quoted1 (q : N) (excluded : str) : re :=
  rseq [is q; RStar (RAlt (RSeq (is q) (RAhead (RChr ns))) (RChr (not_in excluded))); rplus (is q)].
(** Quoted values of CIF2 (247). *)
Definition re_quoted2 (q : N) (excluded : str) : re :=
  rseq [is q; RStar (RChr (not_in excluded)); rplus (is q)].
Definition sq : N := 39%N.
Definition dq : N := 34%N.
Definition excl_sq : str := [10; 13; 12; 39]%N.     (* newline, return, form feed, apostrophe *)
Definition excl_dq : str := [10; 13; 34]%N.         (* newline, return, double quote *)
(** Triple quoted values: three quotes, anything (lazily), three quotes (246). *)
Definition re_triple (q : N) : re :=
  rseq [is q; is q; is q; RLazy (RChr (fun _ => true)); is q; is q; is q].

(** (\r\n|\r|\n)+ *)
Definition re_eols : re := rplus (RAlt (RSeq (is 13) (is 10)) (RAlt (is 13) (is 10))).
Definition not_eol : N -> bool := not_in [10; 13]%N.

(** The expressions, by token (218-302). *)
Definition tok_re (g : grammar) (t : tok) : re :=
  match t with
  | Colon => is 58
  | Comma => is 44
  | Ign1 => RAlt (RSeq (one_of [32; 9; 10; 13]%N) (RNot (is 59))) (one_of [32; 9]%N)
  | Ign2 => RAlt (rseq [is 35; RStar rdot; one_of [10; 13]%N; RNot (is 59)]) (RSeq (is 35) (RStar rdot))
  | LBlock => word_ci (u "LOOP_")
  | Global => word_ci (u "GLOBAL_")
  | Stop => word_ci (u "STOP_")
  | SaveHeading => RSeq (word_ci (u "SAVE_")) (rplus (RChr (name_char g)))
  | SaveEnd => word_ci (u "SAVE_")
  | DataName => RSeq (is 95) (rplus (RChr (name_char g)))
  | DataHeading => RSeq (word_ci (u "DATA_")) (rplus (RChr (name_char g)))
  | StartSc => rseq [RAlt (is 10) (RSeq (is 13) (is 10)); is 59; RStar (RChr not_eol); re_eols]
  | ScLine => rseq [RChr (not_in [59; 13; 10]%N); RStar (RChr not_eol); re_eols]
  | EndSc => is 59
  | CCurl => is 125
  | OCurl => is 123
  | CSquare => is 93
  | OSquare => is 91
  | InternalSq => rseq [is 91; RStar (RChr (fun c => ns c && not_in (u "[]") c)); is 93]
  | TripleQ => RAlt (re_triple sq) (re_triple dq)
  | SingleQ => RAlt (re_quoted2 sq excl_sq) (re_quoted2 dq excl_dq)
  | Value1 => match g with
              | G10 | G11 => RAlt (re_plain g) (RAlt (re_quoted1 sq excl_sq) (re_quoted1 dq excl_dq))
              | G20 | GS2 => re_plain g
              end
  | End => REnd
  end.

(** The tokens in the order of the pattern list.  Literal tokens met in the rules
    are inserted at the front (src/yapps3/grammar.py 189); a colon and, in STAR2,
    a comma. *)
Definition tokens1 : list tok :=
  [Ign1; Ign2; LBlock; Global; Stop; SaveHeading; SaveEnd; DataName; DataHeading; StartSc; ScLine; EndSc; Value1; End].
Definition tokens2 : list tok :=
  [Ign1; Ign2; LBlock; Global; Stop; SaveHeading; SaveEnd; DataName; DataHeading; StartSc; ScLine; EndSc;
   CCurl; OCurl; CSquare; OSquare; InternalSq; TripleQ; SingleQ].
Definition patterns (g : grammar) : list tok :=
  match g with
  | G10 | G11 => tokens1
  | G20 => Colon :: tokens2 ++ [Value1; End]
  | GS2 => Colon :: Comma :: tokens2 ++ [End; Value1]
  end.
Definition ignored (t : tok) : bool := tmem t [Ign1; Ign2].

(** Accepted patterns for a restriction (208-219); no restriction means all. *)
Definition accepted (g : grammar) (restrict : list tok) : list tok :=
  match restrict with
  | [] => patterns g
  | _ => filter (fun t => tmem t restrict || ignored t) (patterns g)
  end.

(** The search for the best match (224-231): a later pattern has to be strictly
    longer to win. *)
Fixpoint best_match (g : grammar) (ts : list tok) (s : str) (best : option (tok * str * str)) : option (tok * str * str) :=
  match ts with
  | [] => best
  | t :: ts' =>
      let best' := match re_match (tok_re g t) s with
                   | Some (m, r) =>
                       match best with
                       | Some (_, m0, _) => if (length m0 <? length m)%nat then Some (t, m, r) else best
                       | None => Some (t, m, r)
                       end
                   | None => best
                   end in
      best_match g ts' s best'
  end.

(** interp_scan (204-254): token, its text and the text after it.  The loop over
    ignored matches is given a number of rounds. *)
Fixpoint scan_go (fuel : nat) (g : grammar) (ts : list tok) (s : str) : outcome (tok * str * str) :=
  match best_match g ts s None with
  | None => Raise SyntaxErr
  | Some (t, m, r) =>
      if ignored t then
        match fuel with
        | O => Raise OutOfFuel
        | Datatypes.S f => scan_go f g ts r
        end
      else Ret (t, m, r)
  end.
Definition scan (g : grammar) (restrict : list tok) (s : str) : outcome (tok * str * str) :=
  scan_go (length s) g (accepted g restrict) s.

(** Parser state: the text not yet scanned, and the token that has been looked at
    but not taken, with the restriction it was scanned under.  (The list of all
    tokens is only ever read at its end, see [_peek] and [_scan], 277-289.) *)
Record pstate := PS { p_inp : str; p_pend : option (tok * str * list tok) }.

(** interp_token (173-184): scanning happens once per token; a later, larger
    restriction is an error. *)
Definition token (g : grammar) (restrict : list tok) (st : pstate) : outcome (tok * str * pstate) :=
  match p_pend st with
  | Some (t, m, r0) =>
      if negb (match restrict, r0 with [], _ => true | _, [] => true | _, _ => forallb (fun r => tmem r r0) restrict end)
      then Raise NotImplErr
      else Ret (t, m, st)
  | None =>
      obind (scan g restrict (p_inp st)) (fun x =>
      match x with (t, m, rest) => Ret (t, m, PS rest (Some (t, m, restrict))) end)
  end.
(** [_peek] (277-281) *)
Definition peek (g : grammar) (types : list tok) (st : pstate) : outcome (tok * pstate) :=
  obind (token g types st) (fun x => match x with (t, _, st') => Ret (t, st') end).
(** [_scan] (283-289) *)
Definition take (g : grammar) (t : tok) (st : pstate) : outcome (str * pstate) :=
  obind (token g [t] st) (fun x =>
  match x with (t', m, st') => if tok_eqb t' t then Ret (m, PS (p_inp st') None) else Raise SyntaxErr end).

(** stripstring, striptriple and stripextras (80-121); slices are total in python. *)
Definition py_slice (i j : nat) (s : str) : str := firstn (j - i) (skipn i s).
Definition first_is (c : N) (s : str) : bool := match s with x :: _ => (x =? c)%N | [] => false end.
Definition last_is (c : N) (s : str) : bool := first_is c (rev s).
Definition stripstring (s : str) : str :=
  if first_is sq s && last_is sq s then py_slice 1 (length s - 1) s
  else if first_is dq s && last_is dq s then py_slice 1 (length s - 1) s
  else s.
Definition ends_with (p s : str) : bool := starts_with (rev p) (rev s).
Definition striptriple (s : str) : str :=
  if starts_with [dq; dq; dq] s && ends_with [dq; dq; dq] s then py_slice 3 (length s - 3) s
  else if starts_with [sq; sq; sq] s && ends_with [sq; sq; sq] s then py_slice 3 (length s - 3) s
  else s.
