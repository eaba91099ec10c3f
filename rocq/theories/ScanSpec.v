(** Specification vocabulary for the scanner: which token wins at a position, and
    what may be skipped before it. *)
From Coq Require Import String Ascii List NArith ZArith Bool.
From Verif Require Import PyBase RegexModel ScanModel.
Import ListNotations.

(** Token [t] matches the text [m] at the start of [s], leaving [r]. *)
Definition matches (g : grammar) (t : tok) (s m r : str) : Prop := re_match (tok_re g t) s = Some (m, r).

(** [t] wins at [s] among the patterns [ts]: it is strictly longer than the
    matches of all patterns before it and not shorter than those after it. *)
Definition wins (g : grammar) (ts : list tok) (s : str) (t : tok) (m r : str) : Prop :=
  exists before after, ts = before ++ t :: after /\ matches g t s m r
    /\ (forall t' m' r', In t' before -> matches g t' s m' r' -> (length m' < length m)%nat)
    /\ (forall t' m' r', In t' after -> matches g t' s m' r' -> (length m' <= length m)%nat).

(** [w] is a sequence of blanks and comments, each of which wins where it stands. *)
Inductive skipped (g : grammar) (ts : list tok) : str -> str -> Prop :=
| sk_nil s : skipped g ts [] s
| sk_more t m w r : wins g ts (m ++ w ++ r) t m (w ++ r) -> ignored t = true -> m <> [] ->
    skipped g ts w r -> skipped g ts (m ++ w) r.

(** No pattern matches. *)
Definition stuck (g : grammar) (ts : list tok) (s : str) : Prop := forall t m r, In t ts -> ~ matches g t s m r.

(** What follows an undelimited or CIF1 quoted value: white space or the end. *)
Definition ends_token (t : str) : Prop := match t with [] => True | c :: _ => is_space c = true end.

(** Blanks that the scanner skips. *)
Definition skippable (c : N) : Prop := c = 32%N \/ c = 9%N \/ c = 10%N.

(** Restriction sets under which a value is looked for: as an item's value, in a
    loop, in a list. *)
Definition value_tokens (g : grammar) : list tok :=
  match g with G10 | G11 => [Value1; StartSc] | _ => [Value1; TripleQ; SingleQ; StartSc; OSquare; OCurl] end.
Definition value_context (g : grammar) (restrict : list tok) : Prop :=
  (forall t, In t (value_tokens g) -> In t restrict)
  /\ (forall t, In t restrict -> In t (value_tokens g) \/
        In t [LBlock; DataName; SaveHeading; SaveEnd; DataHeading; End; Comma; CSquare]).

(** A text made of lines: newlines between them. *)
Fixpoint join_lines (ls : list str) : str :=
  match ls with
  | [] => []
  | [l] => l
  | l :: ls' => l ++ 10%N :: join_lines ls'
  end.
Definition one_line (l : str) : Prop := ~ In 10%N l /\ ~ In 13%N l.

(** The lines of a text field that the reader keeps: a line that starts with a
    hash sign, is not the first one and has a non-empty line after it is lost. *)
Definition lost (l : str) (ls : list str) : bool :=
  match l, ls with
  | c :: _, (_ :: _) :: _ => (c =? 35)%N
  | _, _ => false
  end.
Fixpoint kept (ls : list str) : list str :=
  match ls with
  | [] => []
  | l :: ls' => if lost l ls' then kept ls' else l :: kept ls'
  end.

(** The same condition on the text: some line after the first starts with a hash
    sign, has exactly one newline after it and is not the last line. *)
Definition hash_line (p : str) : Prop :=
  exists a l c b, p = a ++ [10%N] ++ (35%N :: l) ++ [10%N] ++ c :: b /\ ~ In 10%N l /\ c <> 10%N.
(** No line end directly before the given character. *)
Definition no_line_starts_with (k : N) (p : str) : Prop :=
  forall a c b, p = a ++ c :: k :: b -> c <> 10%N /\ c <> 13%N.
