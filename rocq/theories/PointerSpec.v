(** What a report about a place in a text should say. *)
From Coq Require Import String Ascii List NArith PeanoNat Bool.
From Verif Require Import PyBase.
Import ListNotations.

(** The lines of a text. *)
Fixpoint lines (s : str) : list str :=
  match s with
  | [] => [[]]
  | c :: r => if N.eqb c 10 then [] :: lines r
              else match lines r with l :: ls => (c :: l) :: ls | [] => [[c]] end
  end.
(** Characters before line number [n] (from 0), line ends included. *)
Fixpoint before_line (ls : list str) (n : nat) : nat :=
  match n, ls with
  | S k, l :: r => (length l + 1 + before_line r k)%nat
  | _, _ => 0%nat
  end.
(** [line] (from 1) and [column] (from 0) are those of place [p] in a text. *)
Definition at_place (s : str) (p line column : nat) : Prop :=
  exists l, nth_error (lines s) (line - 1) = Some l /\ (1 <= line)%nat /\ (column <= length l)%nat /\
    p = (before_line (lines s) (line - 1) + column)%nat.

(** What is on the line of place [p] in front of it and after it, at most 80
    characters each. *)
Definition break (c : N) : bool := N.eqb c 10 || N.eqb c 13.
Fixpoint to_break (s : str) : str := match s with [] => [] | c :: r => if break c then [] else c :: to_break r end.
Definition line_before (s : str) (p : nat) : str := rev (to_break (firstn 80 (rev (firstn p s)))).
Definition line_after (s : str) (p : nat) : str := firstn 80 (to_break (skipn p s)).

(** A good picture of place [p]: the part of the line before it, as long as the pointer
    is far to the right, then the part after it.  Only if there is too much of them is
    the first one cut, and then it begins with dots. *)
Definition shows (s : str) (p : nat) (shown : str) (col : nat) : Prop :=
  exists pre, shown = pre ++ line_after s p /\ length pre = col /\ (col <= 60 \/ length shown <= 70)%nat /\
    (pre = line_before s p
     \/ (60 < length (line_before s p) /\ 70 < length (line_before s p) + length (line_after s p) /\ 54 <= col)%nat /\
        exists k, (10 <= k)%nat /\ pre = u "..." ++ skipn k (line_before s p)).
