(** Specification vocabulary for the folding and prefix protocols, stated on
    texts directly (no model functions). *)
From Coq Require Import String Ascii List NArith ZArith Bool.
From Verif Require Import PyBase.
Import ListNotations.

Definition NL : N := 10%N.
Definition BS : N := 92%N.
Definition SC : N := 59%N.

(** Horizontal white space of the protocols: space, tab, vertical tab, form feed. *)
Definition blank (c : N) : Prop := c = 32%N \/ c = 9%N \/ c = 11%N \/ c = 12%N.

(** Position of a piece of text: [a] ends before a line start, [z] starts at a line end. *)
Definition at_line_start (a : str) : Prop := a = [] \/ exists a', a = a' ++ [NL].
Definition at_line_end (z : str) : Prop := z = [] \/ exists z', z = NL :: z'.

(** [l] is one line of [s]. *)
Definition line_of (l s : str) : Prop :=
  ~ In NL l /\ exists a z, s = a ++ l ++ z /\ at_line_start a /\ at_line_end z.

(** Some line has at least [n] characters. *)
Definition long_line (n : nat) (s : str) : Prop := exists l, line_of l s /\ (n <= length l)%nat.

(** A line of the text ends in a backslash followed by at least one blank. *)
Definition dangling (s : str) : Prop :=
  exists a b bl z, s = a ++ BS :: b :: bl ++ z /\ Forall blank (b :: bl) /\ at_line_end z.

(** A piece of text inside one line. *)
Definition no_longer_than (n : nat) (s : str) : Prop :=
  forall a l z, s = a ++ l ++ z -> ~ In NL l -> (length l <= n)%nat.

(** A text that starts with a line-folding header, [bl] being the blanks in it. *)
Definition fold_header (bl rest s : str) : Prop :=
  s = BS :: bl ++ NL :: rest /\ Forall blank bl.

(** A prefix that the prefix protocol can carry. *)
Definition good_prefix (p : str) : Prop :=
  (2 <= length p)%nat /\ ~ In NL p /\ ~ In BS p /\ (forall q, p <> SC :: q).

(** No line of the text after the first starts with a semicolon. *)
Definition no_terminator (s : str) : Prop := forall a z, s <> a ++ NL :: SC :: z.

(** Occurrence of a text in another. *)
Definition occurs (p s : str) : Prop := exists a z, s = a ++ p ++ z.
