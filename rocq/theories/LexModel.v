(** The lexer of dREL methods: drel/drel_lex.py, together with what PLY's
    [lex] does with those rules.  No proofs here.

    PLY is not part of the repository; what is taken from it: characters of the
    state's [ignore] are skipped first; otherwise the rules written as functions
    are tried in the order of their definition and then the rules written as
    texts in decreasing order of their length, and the first one that matches
    wins; an inclusive state has its own rules followed by those of INITIAL;
    only if no rule matches is a literal considered; and when the error function
    has not moved on, LexError is raised (here [SyntaxErr]). *)
From Coq Require Import String Ascii List NArith PeanoNat Bool.
From Coq Require Import DecimalString DecimalN.
From Verif Require Import PyBase RegexModel.
Import ListNotations.
Open Scope nat_scope.

(** The types of tokens, drel_lex.py 10-57; a literal has its character as type. *)
Inductive kind :=
| SHORTSTRING | LONGSTRING | INTEGER | BININT | HEXINT | OCTINT | REAL | POWER | ISEQUAL | NEQ
| GTE | LTE | IMAGINARY | ID | ITEM_TAG | COMMENT | STRPREFIX | ELLIPSIS | AND | BADAND | OR
| BADOR | IN_ | NOT | DO | FOR | LOOP | REPEAT | AS | WITH | WHERE | ELSEIF | ELSE | BREAK | NEXT
| IF | SWITCH | CASE | DEFAULT | AUGOP | PRINT | FUNCTION | NEWLINE | ESCAPE_NEWLINE
| OPEN_PAREN | CLOSE_PAREN | LIT (c : N).

(** drel_lex.py 59 *)
Definition literals : str := u "+*-/;[],:^<>{}=.`&|".

(** The state of the lexer: [s_depth] is 0 in state INITIAL and
    [paren_level] in state paren; [s_line] is [lineno]. *)
Record lstate := { s_depth : nat; s_line : N }.

(** drel_lex.py 60-61 *)
Definition ignored (st : lstate) (c : N) : bool :=
  ((c =? 32) || (c =? 9) || (c =? 10) && negb (Nat.eqb (s_depth st) 0))%N.

(** Classes of characters. *)
Definition range (a b c : N) : bool := ((a <=? c) && (c <=? b))%N.
Definition dig (c : N) : bool := range 48 57 c.
Definition hexdig (c : N) : bool := range 48 57 c || range 97 102 c || range 65 70 c.
Definition alpha (c : N) : bool := range 97 122 c || range 65 90 c.
Definition id_char (c : N) : bool := alpha c || dig c || (c =? 95)%N || (c =? 36)%N.
Definition tag_char (c : N) : bool := alpha c || dig c || (c =? 95)%N.

(** drel_lex.py 76 *)
Definition re_augop : re :=
  RAlt (lit (u "++=")) (RAlt (lit (u "+=")) (RAlt (lit (u "-=")) (RAlt (lit (u "--="))
  (RAlt (lit (u "*=")) (lit (u "/=")))))).
(** The part common to drel_lex.py 102 and 106. *)
Definition re_mant : re :=
  RAlt (rseq [rplus (RChr dig); is 46; RStar (RChr dig)]) (RSeq (is 46) (rplus (RChr dig))).
Definition re_expo : re := ropt (rseq [one_of (u "Ee"); ropt (one_of (u "+-")); rplus (RChr dig)]).
(** drel_lex.py 102 *)
Definition re_imaginary : re :=
  RSeq (RAlt (RSeq re_mant re_expo) (rplus (RChr dig))) (one_of (u "jJ")).
(** drel_lex.py 106 *)
Definition re_real : re := RSeq re_mant re_expo.
(** drel_lex.py 117, 125, 133, 141 *)
Definition re_binint : re := rseq [is 48; one_of (u "bB"); rplus (RChr (range 48 49))].
Definition re_octint : re := rseq [is 48; one_of (u "oO"); rplus (RChr (range 48 55))].
Definition re_hexint : re := rseq [is 48; one_of (u "xX"); rplus (RChr hexdig)].
Definition re_integer : re := rplus (RChr dig).
(** drel_lex.py 149 *)
Definition re_pre (w : str) : re := RSeq (lit w) (RAhead (one_of [34; 39]%N)).
Definition re_strprefix : re :=
  RAlt (re_pre (u "r")) (RAlt (re_pre (u "u")) (RAlt (re_pre (u "R")) (RAlt (re_pre (u "U"))
  (RAlt (re_pre (u "ur")) (RAlt (re_pre (u "UR")) (RAlt (re_pre (u "Ur")) (re_pre (u "uR")))))))).
(** drel_lex.py 154 *)
Definition re_long (q : N) : re :=
  rseq [lit [q; q; q]; RStar (RAlt (none_of [92]%N) (RSeq (is 92) rdot)); lit [q; q; q]].
Definition re_longstring : re := RAlt (re_long 39) (re_long 34).
(** drel_lex.py 159 *)
Definition re_short (q : N) : re :=
  rseq [is q; RStar (RAlt (none_of [q; 10]%N) (RSeq (is 92) rdot)); is q].
Definition re_shortstring : re := RAlt (re_short 39) (re_short 34).
(** drel_lex.py 164 *)
Definition re_elseif : re :=
  rseq [letter 69; letter 76; letter 83; letter 69; rplus (RChr is_space); letter 73; letter 70].
(** drel_lex.py 203, 210, 214, 218, 223 *)
Definition re_id : re := RSeq (RChr alpha) (RStar (RChr id_char)).
Definition re_item_tag : re := RSeq (is 95) (rplus (RChr tag_char)).
Definition re_escape_newline : re := lit [92; 10]%N.
Definition re_newline : re := RSeq (is 10) (RStar (one_of [10; 32; 9]%N)).
Definition re_comment : re := RSeq (is 35) (RStar rdot).

(** The rules of INITIAL in the order in which they are tried: the functions of
    lines 75-224 without those of state paren, then the texts of lines 66-73. *)
Definition initial_rules : list (kind * re) :=
  [ (AUGOP, re_augop); (OPEN_PAREN, lit (u "(")); (IMAGINARY, re_imaginary); (REAL, re_real);
    (BININT, re_binint); (OCTINT, re_octint); (HEXINT, re_hexint); (INTEGER, re_integer);
    (STRPREFIX, re_strprefix); (LONGSTRING, re_longstring); (SHORTSTRING, re_shortstring);
    (ELSEIF, re_elseif); (ID, re_id); (ITEM_TAG, re_item_tag); (ESCAPE_NEWLINE, re_escape_newline);
    (NEWLINE, re_newline); (COMMENT, re_comment);
    (ELLIPSIS, lit (u "...")); (POWER, lit (u "**")); (BADOR, lit (u "||")); (ISEQUAL, lit (u "=="));
    (NEQ, lit (u "!=")); (GTE, lit (u ">=")); (LTE, lit (u "<=")); (BADAND, lit (u "&&")) ].
(** drel_lex.py 86-96: state paren has two rules of its own. *)
Definition paren_rules : list (kind * re) :=
  (OPEN_PAREN, lit (u "(")) :: (CLOSE_PAREN, lit (u ")")) :: initial_rules.
Definition rules (st : lstate) : list (kind * re) :=
  if Nat.eqb (s_depth st) 0 then initial_rules else paren_rules.

(** The first rule that matches: its name, the text and the rest. *)
Fixpoint find_rule (l : list (kind * re)) (s : str) : option (kind * str * str) :=
  match l with
  | [] => None
  | (k, r) :: l' => match re_match r s with
                    | Some (m, t) => Some (k, m, t)
                    | None => find_rule l' s
                    end
  end.

(** drel_lex.py 167-200 *)
Definition reserved : list (str * kind) :=
  [ (u "and", AND); (u "or", OR); (u "in", IN_); (u "not", NOT); (u "do", DO); (u "Do", DO);
    (u "for", FOR); (u "For", FOR); (u "loop", LOOP); (u "Loop", LOOP); (u "as", AS);
    (u "with", WITH); (u "With", WITH); (u "where", WHERE); (u "Where", WHERE); (u "else", ELSE);
    (u "Else", ELSE); (u "Next", NEXT); (u "next", NEXT); (u "break", BREAK); (u "Break", BREAK);
    (u "if", IF); (u "If", IF); (u "switch", SWITCH); (u "case", CASE); (u "Function", FUNCTION);
    (u "function", FUNCTION); (u "Print", PRINT); (u "print", PRINT); (u "Repeat", REPEAT);
    (u "repeat", REPEAT); (u "default", DEFAULT) ].
Fixpoint keyword (l : list (str * kind)) (w : str) : kind :=
  match l with [] => ID | (x, k) :: l' => if str_eqb x w then k else keyword l' w end.

(** [int(text,base)] for a text of digits of that base, and [repr] of an int.
    (Python refuses to print more than 4300 digits; not modelled.) *)
Definition digit_val (c : N) : N :=
  (if range 48 57 c then c - 48 else if range 97 102 c then c - 87 else c - 55)%N.
Definition int_of (base : N) (t : str) : N := fold_left (fun a c => a * base + digit_val c)%N t 0%N.
Definition repr_int (n : N) : str := u (NilEmpty.string_of_uint (N.to_uint n)).

(** What the function of a rule does with the matched text: the new state and
    the token it returns, if any. *)
Definition act (k : kind) (m : str) (st : lstate) : lstate * option (kind * str) :=
  match k with
  | OPEN_PAREN => ({| s_depth := S (s_depth st); s_line := s_line st |}, Some (OPEN_PAREN, m))   (* 80-89 *)
  | CLOSE_PAREN => ({| s_depth := pred (s_depth st); s_line := s_line st |}, Some (CLOSE_PAREN, m)) (* 91-96 *)
  | BININT => (st, Some (BININT, repr_int (int_of 2 (skipn 2 m))))                                 (* 119 *)
  | OCTINT => (st, Some (OCTINT, repr_int (int_of 8 (skipn 2 m))))                                 (* 127 *)
  | HEXINT => (st, Some (HEXINT, repr_int (int_of 16 (skipn 2 m))))                                (* 135 *)
  | ID => (st, Some (keyword reserved m, m))                                                       (* 204 *)
  | ESCAPE_NEWLINE => ({| s_depth := s_depth st; s_line := s_line st + 1 |}, None)                 (* 213-215 *)
  | NEWLINE => ({| s_depth := s_depth st; s_line := s_line st + N.of_nat (length m) |}, Some (NEWLINE, m)) (* 217-220 *)
  | COMMENT => (st, None)                                                                          (* 222-224 *)
  | _ => (st, Some (k, m))
  end%N.

Definition push (o : option (kind * str)) (r : outcome (list (kind * str) * lstate)) : outcome (list (kind * str) * lstate) :=
  obind r (fun tl => Ret (match o with Some t => t :: fst tl | None => fst tl end, snd tl)).

(** All tokens of a text (the loop of PLY's [Lexer.token]). *)
Fixpoint lex_go (fuel : nat) (st : lstate) (s : str) : outcome (list (kind * str) * lstate) :=
  match fuel with
  | O => Raise OutOfFuel
  | S n =>
      match s with
      | [] => Ret ([], st)
      | c :: s' =>
          if ignored st c then lex_go n st s'
          else match find_rule (rules st) s with
               | Some (k, m, t) => push (snd (act k m st)) (lex_go n (fst (act k m st)) t)
               | None => if existsb (N.eqb c) literals then push (Some (LIT c, [c])) (lex_go n st s')
                         else Raise SyntaxErr
               end
      end
  end.
Definition lex (st : lstate) (s : str) : outcome (list (kind * str) * lstate) := lex_go (S (length s)) st s.

(** The state in which a method is lexed: [lexer.begin('INITIAL')],
    CifFile_module.nw 2831; the line number starts at 1 in PLY. *)
Definition fresh : lstate := {| s_depth := 0; s_line := 1 |}.
