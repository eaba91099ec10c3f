(** Model of what the parser runtime reports about a syntax error
    (src/yapps3_compiled_rt.py): get_prev_char_pos, get_line_number,
    get_column_number, get_input_scanned (135-158), the tokens of __repr__ (192-202),
    print_line_with_pointer (327-362), print_error (364-380), as called by ReadStar
    (src/StarFile.nw 1130-1148).

    Simplifications: positions are natural numbers (a token's start or the scanner's
    place); the tokens of __repr__ are given as a list, not printed with repr; the
    arguments of a rule are left out.  No proofs here. *)
From Coq Require Import String Ascii List NArith PeanoNat Bool.
From Verif Require Import PyBase.
Import ListNotations.
Open Scope nat_scope.

(** A token: where it starts, where it ends, its name, its text (102). *)
Definition token := (nat * nat * str * str)%type.
Definition t_start (t : token) : nat := match t with (a, _, _, _) => a end.
(** The scanner: its text, its place in it (always 0 with the compiled scanner, which
    keeps its own; so are the tokens empty), the tokens found. *)
Record scanner := Sc { sc_input : str; sc_pos : nat; sc_tokens : list token }.

(** get_input_scanned (152-154) *)
Definition input_scanned (s : scanner) : str := firstn (sc_pos s) (sc_input s).
(** s.count(c) *)
Definition count_ch (c : N) (s : str) : nat := length (filter (N.eqb c) s).
(** s.find(c), s.rfind(c); None for -1 *)
Fixpoint find_ch (c : N) (s : str) : option nat :=
  match s with
  | [] => None
  | d :: r => if N.eqb c d then Some 0 else match find_ch c r with Some n => Some (S n) | None => None end
  end.
Fixpoint rfind_ch (c : N) (s : str) : option nat :=
  match s with
  | [] => None
  | d :: r => match rfind_ch c r with Some n => Some (S n) | None => if N.eqb c d then Some 0 else None end
  end.
(** get_line_number (141-144); first_line_number is 1 (108). *)
Definition line_number (s : scanner) : nat := 1 + count_ch 10 (input_scanned s).
(** get_column_number (146-150) *)
Definition column_number (s : scanner) : nat :=
  let t := input_scanned s in
  length t - match rfind_ch 10 t with Some i => i + 1 | None => 0 end.

(** if i < 0 or (0 <= j < i): i = j (342, 350) *)
Definition pick (i j : option nat) : option nat :=
  match i, j with
  | None, _ => j
  | Some a, Some b => if b <? a then Some b else Some a
  | Some a, None => Some a
  end.
(** Strip to the left (340-345) *)
Definition strip_left (text : str) (p : nat) : str * nat :=
  match pick (rfind_ch 10 (firstn p text)) (rfind_ch 13 (firstn p text)) with
  | Some i => if i <? p then (skipn (i + 1) text, p - i - 1) else (text, p)
  | None => (text, p)
  end.
(** text.find(c, p) *)
Definition find_from (c : N) (text : str) (p : nat) : option nat :=
  match find_ch c (skipn p text) with Some n => Some (p + n) | None => None end.
(** Strip to the right (348-352) *)
Definition strip_right (text : str) (p : nat) : str :=
  match pick (find_from 10 text p) (find_from 13 text p) with
  | Some i => firstn i text
  | None => text
  end.
(** Now shorten the text (355-358); [fuel] bounds the rounds, each of which takes 7
    from p. *)
Fixpoint shorten (fuel : nat) (text : str) (p : nat) : str * nat :=
  match fuel with
  | O => (text, p)
  | S f => if (70 <? length text) && (60 <? p) then shorten f (u "..." ++ skipn 10 text) (p - 7) else (text, p)
  end.
(** The text shown and the place of the pointer in it (336-358). *)
Definition pointed (text : str) (p : nat) : str * nat :=
  let t1 := skipn (p - 80) (firstn (p + 80) text) in
  let p1 := p - (p - 80) in
  let '(t2, p2) := strip_left t1 p1 in
  let t3 := strip_right t2 p2 in
  shorten (S p2) t3 p2.
(** The two lines printed (361-362): print puts a blank between its arguments. *)
Definition blanks (n : nat) : str := repeat 32%N n.
Definition print_line_with_pointer (text : str) (p : nat) : list str :=
  let '(t, q) := pointed text p in [u ">  " ++ t; u ">  " ++ blanks q ++ u "^"].

(** get_prev_char_pos with a token's number (135-139) *)
Definition prev_char_pos (s : scanner) (i : nat) : outcome nat :=
  if sc_pos s =? 0 then Ret 0
  else match nth_error (sc_tokens s) i with Some t => Ret (t_start t) | None => Raise IndexErr end.
(** ... and without (i = -1) *)
Definition prev_char_pos_last (s : scanner) : outcome nat :=
  if sc_pos s =? 0 then Ret 0
  else match rev (sc_tokens s) with t :: _ => Ret (t_start t) | [] => Raise IndexErr end.

(** The rules that were being parsed, from the inside: the number of the token at
    which each began, and its name (291-314). *)
Definition context := list (nat * str).
(** YappsSyntaxError (61-67); a context of None is []. *)
Record syntax_error := SE { e_charpos : nat; e_msg : str; e_context : context }.

(** What print_error prints (364-380). *)
Inductive printed :=
| PPlace (line column : nat) (msg : str)      (* 370 *)
| PWhile (rule : str)                         (* 378 *)
| PLine (text : str).                         (* print_line_with_pointer *)
Fixpoint print_context (c : context) (s : scanner) : outcome (list printed) :=
  match c with
  | [] => Ret []
  | (i, rule) :: r =>
      obind (prev_char_pos s i) (fun p =>
      obind (print_context r s) (fun l =>
      Ret (PWhile rule :: map PLine (print_line_with_pointer (sc_input s) p) ++ l)))
  end.
Definition print_error (e : syntax_error) (s : scanner) : outcome (list printed) :=
  let head := PPlace (line_number s) (column_number s) (e_msg e) in
  match e_context e with
  | [] => Ret (head :: map PLine (print_line_with_pointer (sc_input s) (e_charpos e)))
  | c => obind (print_context c s) (fun l => Ret (head :: l))
  end.

(** The tokens that __repr__ prints (196): self.tokens[-10:] *)
Definition last_tokens (s : scanner) : list token :=
  skipn (length (sc_tokens s) - 10) (sc_tokens s).
