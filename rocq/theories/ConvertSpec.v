(** A collection says what a text says (names, values, loops and order, but not the
    numbers that loops have inside), and texts that can be written in a grammar. *)
From Coq Require Import String Ascii List NArith ZArith PeanoNat Bool.
From Verif Require Import PyBase StarBlockModel StarBlockSpec ReadModel ReadSpec ScanModel ParseModel ParseSpec CollectionModel CollectionSpec HandSpec.
Import ListNotations.

(** A place of the output order is that of an item. *)
Definition place_of (b : block) (x : oitem) (it : item) : Prop :=
  match x, it with
  | ON n, Kv m _ => n = lower m
  | OL k, Lp ns _ => dget Z.eqb k (b_loops b) = Some (map lower ns)
  | _, _ => False
  end.
Definition says_part (c : coll) (x : part) : Prop :=
  match x with (n, p, its) => entry_of c (lower n) = Some (PC n (option_map lower p))
    /\ exists b, c_get n c = Ret b /\ WF b /\ Forall (holds_item b) its
       /\ (forall k t, dget str_eqb k (b_true b) = Some t <-> In t (all_names its) /\ k = lower t)
       /\ Forall2 (place_of b) (b_order b) its end.
(** The name and the items can be written in the grammar and read back. *)
Definition part_writable (g : grammar) (maxout : Z) (x : part) : Prop :=
  match x with (n, _, its) => readable_heading g n /\ Forall (round_trips g maxout []) its end.
(** Items whose values are texts without unusual characters. *)
Definition plain_value (v : value) : Prop := exists s, v = VStr s /\ ordinary s.
Definition plain_item (it : item) : Prop := match it with Kv _ v => plain_value v | Lp _ vs => Forall plain_value vs end.
Definition plain_part (x : part) : Prop := match x with (_, _, its) => Forall plain_item its end.
