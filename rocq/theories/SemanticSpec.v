(** Specification vocabulary for packets that join the rows of several loops. *)
From Coq Require Import String Ascii List NArith Bool.
From Verif Require Import PyBase StarBlockModel LoopModel StarBlockSpec LoopSpec.
Import ListNotations.

(** Types of keys whose case does not count. *)
Definition ignores_case (ty : str) : Prop := ty = u "Code" \/ ty = u "Tag" \/ ty = u "Name".

Definition key_eq (lc : bool) (kv v : value) : Prop := if lc then same_text_nocase v kv else same_value v kv.

(** Row [i] of the loop with columns [names] is the only one with the value [kv]
    for the key [k]. *)
Definition chosen (b : block) (lc : bool) (kv : value) (k : str) (names : list str) (i : nat) : Prop :=
  get_loop_names k b = Ret names /\ only (row_matches b k (key_eq lc kv)) i.

(** The row chosen through the key [k] has the value [v] for [n]. *)
Definition supplies (b : block) (lc : bool) (kv : value) (k n : str) (v : value) : Prop :=
  exists names i, chosen b lc kv k names i /\ In n names /\ cell b n i v.

(** Values that are set: not None, not a list that is empty or has None in it. *)
Definition is_set (v : value) : Prop :=
  v <> VNone /\ forall l, v = VList l \/ v = VSL l -> l <> [] /\ ~ In VNone l.

(** A key is not in the block at all, or has a value outside loops, or is a column
    of a table (of texts, if case does not count). *)
Definition ready (b : block) (lc : bool) (kv : value) (k : str) : Prop :=
  (get_loop_names k b = Raise KeyErr /\ (get_item k b = Raise KeyErr \/ exists v, get_item k b = Ret v /\ is_set v)) \/
  exists names rows, get_loop_names k b = Ret names /\ is_table b names rows /\
    (lc = true -> (exists s, kv = VStr s) /\ forall i v, cell b k i v -> exists x, v = VStr x).

(** The values of the rows chosen through each of the keys, one after the other. *)
Inductive rows_of (b : block) (lc : bool) (kv : value) : list str -> list value -> Prop :=
| rows_nil : rows_of b lc kv [] []
| rows_skip k r vs : (~ exists names i, chosen b lc kv k names i) -> rows_of b lc kv r vs -> rows_of b lc kv (k :: r) vs
| rows_take k r vs names i row : chosen b lc kv k names i -> Forall2 (fun n v => cell b n i v) names row ->
    rows_of b lc kv r vs -> rows_of b lc kv (k :: r) (row ++ vs).

(** Names that packets have as attributes: one underscore in front. *)
Definition attribute (n : str) : Prop := exists c r, n = (95 :: c :: r)%N /\ c <> 95%N.

(** [v] is what the last of the keys that supplies [n] supplies. *)
Definition supplied_last (b : block) (lc : bool) (kv : value) (keys : list str) (n : str) (v : value) : Prop :=
  exists l1 k l2, keys = l1 ++ k :: l2 /\ supplies b lc kv k n v /\
    forall k' w, In k' l2 -> ~ supplies b lc kv k' n w.

(** The name [k] is among what the keys supply. *)
Definition key_known (b : block) (lc : bool) (kv : value) (keys : list str) (k : str) : Prop :=
  attribute (lower k) /\ exists k' v, In k' keys /\ supplies b lc kv k' (lower k) v.

(** The block has the key [k] under the name [n]: the first of its equivalents and
    itself that is there. *)
Definition goes_by (equivs : list (str * list str)) (b : block) (k n : str) : Prop :=
  exists l1 l2, (match dget str_eqb k equivs with Some l => l | None => [] end) ++ [k] = l1 ++ n :: l2 /\
    has_key n b = true /\ forall x, In x l1 -> has_key x b = false.
(** None of the names of [k] is there. *)
Definition is_away (equivs : list (str * list str)) (b : block) (k : str) : Prop :=
  forall n l, n = k \/ (dget str_eqb k equivs = Some l /\ In n l) -> has_key n b = false.

(** Row [i] has the values asked for, each under the name its key goes by. *)
Definition row_has (repr : value -> str) (kd : list (str * (value * bool))) (b : block) (ks ns : list str) (i : nat) : Prop :=
  forall k n x, In (k, n) (combine ks ns) -> dget str_eqb k kd = Some x -> row_matches b n (key_holds repr x) i.
