(** When the two scanners should read the same. *)
From Coq Require Import String Ascii List NArith PeanoNat Bool.
From Verif Require Import PyBase ScanModel ReadModel ParseModel.
Import ListNotations.
Open Scope nat_scope.

(** The characters of a CIF 1.1 text with line ends written as newlines. *)
Definition plain_text (s : str) : Prop := forall c, In c s -> (32 <= c <= 126)%N \/ c = 9%N \/ c = 10%N.
(** How many lines after the first start with a semicolon. *)
Fixpoint semis (s : str) : nat :=
  match s with
  | c :: ((d :: _) as s') => (if ((c =? 10) && (d =? 59))%N then 1 else 0) + semis s'
  | _ => 0
  end.
(** No line of a text field starts with a hash sign: the line starts with semicolons
    open and close text fields in turn. *)
Definition no_hash_text (s : str) : Prop := forall a b, s = a ++ 10%N :: 35%N :: b -> Nat.even (semis a) = true.
(** loop_ does not run into a name or comment. *)
Definition loops_apart (s : str) : Prop :=
  forall a w c b, s = a ++ w ++ c :: b -> lower w = u "loop_" -> c <> 95%N /\ c <> 35%N.

(** The items of a data block or save frame. *)
Inductive holds : content -> item -> Prop :=
| hd_items l x : In x l -> holds (CItems l) x
| hd_frame n cs c x : In c cs -> holds c x -> holds (CFrame n cs) x.
(** Values are not the word loop_, and in grammar 1.0 do not start with a bracket. *)
Definition value_fit (g : grammar) (v : value) : Prop :=
  forall s, v = VStr s -> lower s <> u "loop_" /\ (g = G10 -> first_is 91 s = false /\ first_is 93 s = false).
Definition item_fit (g : grammar) (x : item) : Prop :=
  match x with Kv _ v => value_fit g v | Lp names vs => names <> [] /\ Forall (value_fit g) vs end.
Definition blocks_fit (g : grammar) (bs : list dblock) : Prop :=
  forall b c x, In b bs -> In c (d_contents b) -> holds c x -> item_fit g x.

(** ** Single tokens *)
(** The tokens that are looked for outside text fields. *)
Definition outside : list tok := [LBlock; SaveHeading; SaveEnd; DataName; DataHeading; StartSc; Value1; End].
Definition ends_name (r : str) : Prop := match r with [] => True | d :: _ => name_char1 d = false end.
Definition quote_char (c : N) : Prop := c = 39%N \/ c = 34%N.
(** The word loop_ is followed by a blank; a value that is not quoted is not the word
    loop_, and in grammar 1.0 does not start with a bracket. *)
Definition tok_fit (g : grammar) (t : tok) (m r : str) : Prop :=
  match t with
  | LBlock => ends_name r
  | Value1 => match m with [] => True | c :: _ => quote_char c \/ lower m <> u "loop_" /\ (g = G10 -> c <> 91%N /\ c <> 93%N) end
  | _ => True
  end.
(** Blanks, line ends and comments. *)
Inductive gap : str -> Prop :=
| gap_nil : gap []
| gap_blank c w : In c [32; 9; 10; 13]%N -> gap w -> gap (c :: w)
| gap_comment l w : ~ In 10%N l -> ~ In 13%N l -> gap w -> gap (35%N :: l ++ w).
