(** What the tokens of a dREL text are, without regular expressions: for each
    kind the texts it may have, the order in which the kinds are considered, and
    the reading of a whole text. *)
From Coq Require Import String Ascii List NArith PeanoNat Bool.
From Verif Require Import PyBase LexModel.
Import ListNotations.
Open Scope nat_scope.

Definition digit (c : N) : Prop := (48 <= c <= 57)%N.
Definition letter_ch (c : N) : Prop := (97 <= c <= 122 \/ 65 <= c <= 90)%N.
Definition name_ch (c : N) : Prop := letter_ch c \/ digit c \/ c = 95%N \/ c = 36%N.
Definition tag_ch (c : N) : Prop := letter_ch c \/ digit c \/ c = 95%N.
Definition white (c : N) : Prop :=
  (9 <= c <= 13 \/ 28 <= c <= 32 \/ c = 0x85 \/ c = 0xA0 \/ c = 0x1680 \/ 0x2000 <= c <= 0x200A
   \/ c = 0x2028 \/ c = 0x2029 \/ c = 0x202F \/ c = 0x205F \/ c = 0x3000)%N.
Definition some_of (P : N -> Prop) (t : list N) : Prop := t <> [] /\ Forall P t.

(** The value of a digit, and of a numeral to a base. *)
Definition digit_is (c d : N) : Prop :=
  (48 <= c <= 57 /\ d = c - 48 \/ 97 <= c <= 102 /\ d = c - 97 + 10 \/ 65 <= c <= 70 /\ d = c - 65 + 10)%N.
Inductive numeral (base : N) : list N -> N -> Prop :=
| numeral_nil : numeral base [] 0
| numeral_snoc t c n d : numeral base t n -> digit_is c d -> (d < base)%N -> numeral base (t ++ [c]) (n * base + d).

(** 12.  .5  1.5  and an exponent. *)
Definition mantissa (t : list N) : Prop :=
  exists a b, t = a ++ [46%N] ++ b /\ Forall digit a /\ Forall digit b /\ a ++ b <> [].
Definition exponent (t : list N) : Prop :=
  t = [] \/ exists e sign ds, t = e :: sign ++ ds /\ (e = 69 \/ e = 101)%N
                              /\ (sign = [] \/ sign = [43%N] \/ sign = [45%N]) /\ some_of digit ds.
Definition real_text (t : list N) : Prop := exists m e, t = m ++ e /\ mantissa m /\ exponent e.

Definition quote_ch (c : N) : Prop := c = 39%N \/ c = 34%N.
(** The inside of a long string: a backslash takes the next character with it. *)
Inductive long_body : list N -> Prop :=
| long_nil : long_body []
| long_char c t : c <> 92%N -> long_body t -> long_body (c :: t)
| long_escape c t : c <> 10%N -> long_body t -> long_body (92%N :: c :: t).

(** One letter in either case. *)
Definition either (x c : N) : Prop := c = x \/ c = (x + 32)%N.

Definition fixed_texts (k : kind) : list string :=
  match k with
  | AUGOP => ["++="; "+="; "--="; "-="; "*="; "/="]
  | OPEN_PAREN => ["("] | CLOSE_PAREN => [")"] | ELLIPSIS => ["..."] | POWER => ["**"] | BADOR => ["||"]
  | ISEQUAL => ["=="] | NEQ => ["!="] | GTE => [">="] | LTE => ["<="] | BADAND => ["&&"]
  | _ => []
  end%string.

(** The text t may be a token of kind k when it is followed by [rest]. *)
Definition shape (k : kind) (t rest : list N) : Prop :=
  match k with
  | INTEGER => some_of digit t
  | REAL => real_text t
  | IMAGINARY => exists x j, t = x ++ [j] /\ (real_text x \/ some_of digit x) /\ (j = 74 \/ j = 106)%N
  | BININT => exists x ds, t = 48%N :: x :: ds /\ (x = 66 \/ x = 98)%N /\ some_of (fun c => 48 <= c <= 49)%N ds
  | OCTINT => exists x ds, t = 48%N :: x :: ds /\ (x = 79 \/ x = 111)%N /\ some_of (fun c => 48 <= c <= 55)%N ds
  | HEXINT => exists x ds, t = 48%N :: x :: ds /\ (x = 88 \/ x = 120)%N /\ some_of (fun c => exists d, digit_is c d) ds
  | STRPREFIX => In t (map u ["r"; "u"; "R"; "U"; "ur"; "UR"; "Ur"; "uR"]%string)
                 /\ exists q r, rest = q :: r /\ quote_ch q
  | LONGSTRING => exists q x, quote_ch q /\ t = [q; q; q] ++ x ++ [q; q; q] /\ long_body x
  | SHORTSTRING => exists q x, quote_ch q /\ t = q :: x ++ [q] /\ ~ In q x /\ ~ In 10%N x
  | ELSEIF => exists a b c d sp i f, t = [a; b; c; d] ++ sp ++ [i; f]
                /\ either 69 a /\ either 76 b /\ either 83 c /\ either 69 d
                /\ some_of white sp /\ either 73 i /\ either 70 f
  | ID => exists c x, t = c :: x /\ letter_ch c /\ Forall name_ch x
  | ITEM_TAG => exists x, t = 95%N :: x /\ some_of tag_ch x
  | ESCAPE_NEWLINE => t = [92; 10]%N
  | NEWLINE => exists x, t = 10%N :: x /\ Forall (fun c => c = 10 \/ c = 32 \/ c = 9)%N x
  | COMMENT => exists x, t = 35%N :: x /\ ~ In 10%N x
  | AUGOP | OPEN_PAREN | CLOSE_PAREN | ELLIPSIS | POWER | BADOR | ISEQUAL | NEQ | GTE | LTE | BADAND =>
      In t (map u (fixed_texts k))
  | _ => False
  end.

(** The order in which the kinds are considered; a closing parenthesis is only
    known inside parentheses. *)
Definition kinds : list kind :=
  [ AUGOP; OPEN_PAREN; IMAGINARY; REAL; BININT; OCTINT; HEXINT; INTEGER; STRPREFIX; LONGSTRING;
    SHORTSTRING; ELSEIF; ID; ITEM_TAG; ESCAPE_NEWLINE; NEWLINE; COMMENT; ELLIPSIS; POWER; BADOR;
    ISEQUAL; NEQ; GTE; LTE; BADAND ].
Definition kinds_at (depth : nat) : list kind :=
  match depth with O => kinds | S _ => OPEN_PAREN :: CLOSE_PAREN :: kinds end.

(** s starts with a text of kind k. *)
Definition some_text (k : kind) (s : list N) : Prop := exists t rest, s = t ++ rest /\ shape k t rest.
(** k is the first kind of [ks] of which s starts with a text, and t is the
    longest such text. *)
Definition first_of (ks : list kind) (s : list N) (k : kind) (t rest : list N) : Prop :=
  (exists before after, ks = before ++ k :: after /\ Forall (fun k' => ~ some_text k' s) before)
  /\ s = t ++ rest /\ shape k t rest
  /\ forall t' rest', s = t' ++ rest' -> shape k t' rest' -> length t' <= length t.

(** The reserved words. *)
Definition words : list (kind * list string) :=
  [ (AND, ["and"]); (OR, ["or"]); (IN_, ["in"]); (NOT, ["not"]); (DO, ["do"; "Do"]); (FOR, ["for"; "For"]);
    (LOOP, ["loop"; "Loop"]); (AS, ["as"]); (WITH, ["with"; "With"]); (WHERE, ["where"; "Where"]);
    (ELSE, ["else"; "Else"]); (NEXT, ["next"; "Next"]); (BREAK, ["break"; "Break"]); (IF, ["if"; "If"]);
    (SWITCH, ["switch"]); (CASE, ["case"]); (FUNCTION, ["function"; "Function"]); (PRINT, ["print"; "Print"]);
    (REPEAT, ["repeat"; "Repeat"]); (DEFAULT, ["default"]) ]%string.
Definition is_word (k : kind) (t : list N) : Prop := exists ws, In (k, ws) words /\ In t (map u ws).

(** A decimal numeral without leading zeros. *)
Definition decimal (v : list N) (n : N) : Prop :=
  numeral 10 v n /\ v <> [] /\ (v = [48%N] \/ hd_error v <> Some 48%N).

(** What is passed on for a text of kind k. *)
Inductive gives : kind -> list N -> list (kind * list N) -> Prop :=
| gives_word k t : is_word k t -> gives ID t [(k, t)]
| gives_id t : (forall k, ~ is_word k t) -> gives ID t [(ID, t)]
| gives_bin x y ds v n : numeral 2 ds n -> decimal v n -> gives BININT (x :: y :: ds) [(BININT, v)]
| gives_oct x y ds v n : numeral 8 ds n -> decimal v n -> gives OCTINT (x :: y :: ds) [(OCTINT, v)]
| gives_hex x y ds v n : numeral 16 ds n -> decimal v n -> gives HEXINT (x :: y :: ds) [(HEXINT, v)]
| gives_comment t : gives COMMENT t []
| gives_escape t : gives ESCAPE_NEWLINE t []
| gives_same k t : ~ In k [ID; BININT; OCTINT; HEXINT; COMMENT; ESCAPE_NEWLINE] -> gives k t [(k, t)].

Definition gap (depth : nat) (c : N) : Prop := (c = 32 \/ c = 9)%N \/ c = 10%N /\ depth <> 0.
Definition depth_after (k : kind) (d : nat) : nat :=
  match k with OPEN_PAREN => S d | CLOSE_PAREN => d - 1 | _ => d end.
Definition single_ch (c : N) : Prop := In c (u "+*-/;[],:^<>{}=.`&|").

(** [reads d s ts d']: inside d parentheses the text s has the tokens ts, and d'
    parentheses are open at its end. *)
Inductive reads : nat -> list N -> list (kind * list N) -> nat -> Prop :=
| reads_end d : reads d [] [] d
| reads_gap d c s ts d' : gap d c -> reads d s ts d' -> reads d (c :: s) ts d'
| reads_token d s k t rest out ts d' :
    (forall c s', s = c :: s' -> ~ gap d c) -> first_of (kinds_at d) s k t rest -> gives k t out ->
    reads (depth_after k d) rest ts d' -> reads d s (out ++ ts) d'
| reads_single d c s ts d' :
    ~ gap d c -> Forall (fun k => ~ some_text k (c :: s)) (kinds_at d) -> single_ch c ->
    reads d s ts d' -> reads d (c :: s) ((LIT c, [c]) :: ts) d'.

(** ** Consequences *)
(** Parentheses opened and not closed in a list of tokens. *)
Definition count (k : kind) (ts : list (kind * list N)) : nat :=
  length (filter (fun x => match k, fst x with OPEN_PAREN, OPEN_PAREN | CLOSE_PAREN, CLOSE_PAREN => true | _, _ => false end) ts).
Definition opened := count OPEN_PAREN.
Definition closed := count CLOSE_PAREN.

(** Tokens that may be written with a blank after each of them. *)
Inductive plain_token : kind -> list N -> Prop :=
| plain_name c x : letter_ch c -> Forall name_ch x -> (forall k, ~ is_word k (c :: x)) ->
    ~ (exists a b e d, c :: x = [a; b; e; d] /\ either 69 a /\ either 76 b /\ either 83 e /\ either 69 d) ->
    plain_token ID (c :: x)
| plain_word k t : is_word k t -> k <> ELSE -> plain_token k t
| plain_integer t : some_of digit t -> plain_token INTEGER t
| plain_tag x : some_of tag_ch x -> plain_token ITEM_TAG (95%N :: x)
| plain_string q x : quote_ch q -> ~ In q x -> ~ In 10%N x -> plain_token SHORTSTRING (q :: x ++ [q])
| plain_real a b : Forall digit a -> Forall digit b -> a ++ b <> [] -> plain_token REAL (a ++ [46%N] ++ b)
| plain_single c : single_ch c -> plain_token (LIT c) [c].
Definition written (ts : list (kind * list N)) : list N := flat_map (fun x => snd x ++ [32%N]) ts.
