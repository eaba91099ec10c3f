(** Specification vocabulary for the choice of delimiters and for reading values
    back. *)
From Coq Require Import String Ascii List NArith ZArith Bool.
From Verif Require Import PyBase RegexModel ScanModel FoldSpec ScanSpec.
Import ListNotations.

Definition QS : N := 39%N.     (* apostrophe *)
Definition QD : N := 34%N.     (* double quote *)
Definition has_triples (g : grammar) : Prop := g = G20 \/ g = GS2.

(** [s] starts with [w] in either case; [w] is in small letters. *)
Definition starts_ci (w s : str) : Prop := exists a b, s = a ++ b /\ lower a = w.

(** A text fit for the given delimiter (None means undelimited). *)
Definition short (maxout : Z) (s : str) : Prop := (Z.of_nat (length s) <= maxout - 2)%Z.
Definition never_plain : str := u "[]{}" ++ [11; 9; 32]%N ++ u "," ++ [QS; QD].
Definition admissible (g : grammar) (maxout : Z) (d : option str) (s : str) : Prop :=
  match d with
  | None =>
      s <> [] /\ short maxout s /\ ~ In NL s /\ (forall c, In c never_plain -> ~ In c s)
      /\ (forall c r, s = c :: r -> ~ In c (u "_$#;("))
      /\ ~ starts_ci (u "data") s /\ ~ starts_ci (u "save") s /\ ~ starts_ci (u "global") s
  | Some [q] => (q = QS \/ q = QD) /\ short maxout s /\ ~ In NL s /\ ~ In q s
  | Some [a; b] => a = NL /\ b = SC
  | Some [a; b; c] => has_triples g /\ a = b /\ b = c /\ (a = QS \/ a = QD)
  | Some _ => False
  end.

(** The written form [f] of [s] with delimiter [d]. *)
Definition written (d : option str) (s f : str) : Prop :=
  match d with
  | None => f = s
  | Some [a; b] => exists p, f = [NL; SC] ++ p ++ [NL; SC] /\ no_terminator p
  | Some q => f = q ++ s ++ q
  end.

(** What may stand directly after a value. *)
Definition closes (g : grammar) (t : str) : Prop :=
  match t with
  | [] => True
  | c :: _ => is_space c = true \/ (g = G20 /\ In c (u "{}[]")) \/ (g = GS2 /\ In c (u ",{}[]"))
  end.

(** A text that starts with a header of the prefix protocol. *)
Definition prefix_header (s : str) : Prop :=
  exists c p bs bl rest, s = (c :: p) ++ bs ++ bl ++ NL :: rest
    /\ c <> SC /\ c <> NL /\ p <> [] /\ ~ In NL p /\ ~ In BS p
    /\ (bs = [BS] \/ bs = [BS; BS]) /\ Forall blank bl.
(** Contents that three quotes can carry. *)
Definition triple_ok (q : N) (s : str) : Prop := ~ occurs [q; q; q] s /\ (forall a, s <> a ++ [q]).

Definition CR : N := 13%N.
Definition FF : N := 12%N.
(** A text [s] that a text field with content [p] can carry: it does not look
    folded; written as it is, it does not look prefixed; folded or prefixed, it has
    no line that ends in a backslash and blanks; and no line of [p] is taken for a
    comment. *)
Definition text_ok (s p : str) : Prop :=
  ~ In CR s /\ (forall bl rest, ~ fold_header bl rest s) /\ (p = s -> ~ prefix_header s)
  /\ (p <> s -> ~ dangling s) /\ ~ hash_line p.

(** The cases in which a written form [f] of [s] is read back; [in_loop] tells
    whether a loop_ keyword would be recognised where the value stands. *)
Definition readable (in_loop : bool) (s f : str) : Prop :=
  (f = s -> (forall c, In c s -> is_space c = false) /\ ~ starts_ci (u "stop_") s
            /\ (in_loop = true -> lower s <> u "loop_"))
  /\ (forall q, q = QS \/ q = QD -> f = [q] ++ s ++ [q] -> ~ In CR s /\ (q = QS -> ~ In FF s))
  /\ (forall q, q = QS \/ q = QD -> f = [q; q; q] ++ s ++ [q; q; q] -> triple_ok q s)
  /\ (forall p, f = [NL; SC] ++ p ++ [NL; SC] -> text_ok s p).

(** A place where a value is looked for. *)
Definition value_place (g : grammar) (in_loop : bool) (restrict : list tok) : Prop :=
  value_context g restrict /\ (In LBlock restrict -> in_loop = true).
