(** A file as it may be written by hand: which texts are tokens, what has to follow
    them, and what may stand between them.  Nothing here mentions the scanner. *)
From Coq Require Import String Ascii List NArith Bool.
From Verif Require Import PyBase RegexModel ScanModel ReadModel ParseModel ParseSpec GrammarSpec.
Import ListNotations.

(** Blanks, line ends and comments before the text [r].  A line end directly before a
    semicolon belongs to a text field; a comment ends with its line. *)
Inductive spaced : str -> str -> Prop :=
| sp_nil r : spaced [] r
| sp_blank c w r : c = 32%N \/ c = 9%N -> spaced w r -> spaced (c :: w) r
| sp_line w r : hd_error (w ++ r) <> Some 59%N -> spaced w r -> spaced (10%N :: w) r
| sp_return w r : hd_error (w ++ r) <> Some 59%N -> firstn 2 (w ++ r) <> [10; 59]%N -> spaced w r -> spaced (13%N :: w) r
| sp_comment x w r : ~ In 10%N x -> ~ In 13%N x ->
    (w ++ r = [] \/ hd_error (w ++ r) = Some 10%N \/ exists v, w ++ r = [13; 10]%N ++ v /\ hd_error v <> Some 59%N) ->
    spaced w r -> spaced (35%N :: x ++ w) r.

(** Characters that do not start an unquoted value, and those that end it besides
    white space. *)
Definition not_first (g : grammar) : str :=
  match g with G10 => u """#$'_" | G11 => u """#$'_{[]" | G20 => u """#$'_{}[]" | GS2 => u """#$',_{}[]" end.
Definition not_inside (g : grammar) : str :=
  match g with G10 | G11 => [] | G20 => u "{}[]" | GS2 => u ",{}[]" end.
Definition value_over (g : grammar) (s : str) : Prop :=
  match s with [] => True | c :: _ => is_space c = true \/ In c (not_inside g) end.
Definition name_over (g : grammar) (s : str) : Prop := match s with [] => True | c :: _ => name_char g c = false end.
Definition line_over (s : str) : Prop := match s with [] => True | c :: _ => ~ eol c end.
Definition reserved_word (m : str) : Prop :=
  exists w r, In w [u "data_"; u "save_"; u "global_"; u "stop_"] /\ lower m = w ++ r.
(** What a quoted value must not hold besides its quote. *)
Definition unquotable (q : N) (c : N) : Prop := eol c \/ (q = 39%N /\ c = 12%N).

Definition unquoted (g : grammar) (m s : str) : Prop :=
  exists c r, m = c :: r /\ is_space c = false /\ ~ In c (not_first g)
  /\ Forall (fun d => is_space d = false /\ ~ In d (not_inside g)) r
  /\ ~ reserved_word m /\ lower m <> u "loop_" /\ value_over g s.
(** CIF 1: a quote may stand inside if no white space follows it; the last one is
    followed by white space. *)
Definition quoted_cif1 (m s : str) : Prop :=
  exists q x, quote q /\ m = q :: x ++ [q] /\ Forall (fun c => ~ unquotable q c) x
  /\ (forall a c b, x ++ [q] = a ++ q :: c :: b -> is_space c = false)
  /\ match s with [] => True | c :: _ => is_space c = true end.
Definition quoted_cif2 (m s : str) : Prop :=
  exists q x, quote q /\ m = q :: x ++ [q] /\ Forall (fun c => ~ unquotable q c /\ c <> q) x /\ hd_error s <> Some q.
Definition quoted_triple (m s : str) : Prop :=
  exists q x, quote q /\ m = [q; q; q] ++ x ++ [q; q; q] /\ (forall a b, x ++ [q; q; q] = a ++ [q; q; q] ++ b -> b = []) /\ hd_error s <> Some q.

(** The text [m], followed by [s], is a token. *)
Definition token_at (g : grammar) (t : tok) (m s : str) : Prop :=
  match t with
  | Colon => cif2 g /\ m = [58%N]
  | Comma => g = GS2 /\ m = [44%N]
  | OSquare => cif2 g /\ m = [91%N] | CSquare => cif2 g /\ m = [93%N]
  | OCurl => cif2 g /\ m = [123%N] | CCurl => cif2 g /\ m = [125%N]
  | LBlock => lower m = u "loop_" /\ value_over g s
  | SaveEnd => lower m = u "save_" /\ name_over g s
  | SaveHeading => exists w n, m = w ++ n /\ lower w = u "save_" /\ readable_heading g n /\ name_over g s
  | DataHeading => exists w n, m = w ++ n /\ lower w = u "data_" /\ readable_heading g n /\ name_over g s
  | DataName => readable_name g m /\ name_over g s
  | StartSc => exists e x y, m = e ++ 59%N :: x ++ y /\ (e = [10%N] \/ e = [13; 10]%N)
      /\ Forall (fun c => ~ eol c) x /\ y <> [] /\ Forall eol y /\ line_over s
  | ScLine => exists c x y, m = c :: x ++ y /\ c <> 59%N /\ c <> 35%N /\ ~ eol c
      /\ Forall (fun c => ~ eol c) x /\ y <> [] /\ Forall eol y /\ line_over s
  | EndSc => m = [59%N]
  | TripleQ => cif2 g /\ quoted_triple m s
  | SingleQ => cif2 g /\ quoted_cif2 m s
  | Value1 => unquoted g m s \/ (~ cif2 g /\ quoted_cif1 m s)
  | _ => False
  end.

(** The text [s] is the tokens [ts] up to its end, with nothing else between the lines
    of a text field. *)
Inductive set_out (g : grammar) : list lexeme -> str -> Prop :=
| so_end w : spaced w [] -> set_out g [] w
| so_tok w t m s ts : spaced w (m ++ s) -> (t = ScLine \/ t = EndSc -> w = []) -> token_at g t m s -> set_out g ts s ->
    set_out g ((t, m) :: ts) (w ++ m ++ s).

(** Items that follow one another are one group. *)
Inductive grouped : list content -> Prop :=
| gr_nil : grouped []
| gr_items l cs : match cs with CItems _ :: _ => False | _ => True end -> grouped cs -> grouped (CItems l :: cs)
| gr_frame n l cs : grouped l -> grouped cs -> grouped (CFrame n l :: cs).
