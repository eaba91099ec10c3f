(** What a file of valid blocks should guarantee. *)
From Coq Require Import String Ascii List NArith ZArith Bool.
From Verif Require Import PyBase StarBlockModel CollectionModel CollectionSpec ValidateModel ValidBlockModel ValidBlockSpec.
Import ListNotations.

(** The same items, loops, order and spelling. *)
Definition same_block (b b' : block) : Prop :=
  b_data b' = b_data b /\ b_loops b' = b_loops b /\ b_order b' = b_order b /\ b_true b' = b_true b.
(** Every block that is visible passes all checks of the dictionary. *)
Definition file_ok (d : vdic) (c : coll) : Prop := forall k b, In k (c_keys c) -> c_get k c = Ret b -> block_ok d b.
(** Loops have names. *)
Definition loops_named (b : block) : Prop := Forall (fun kl => snd kl <> []) (b_loops b).
Definition file_named (c : coll) : Prop := forall k b, c_get k c = Ret b -> loops_named b.
(** The same blocks under the same names, in the same places. *)
Definition same_blocks (c c' : coll) : Prop :=
  ckeys c' = ckeys c /\ c_lower c' = c_lower c /\ c_child c' = c_child c /\ c_vis c' = c_vis c /\ c_order c' = c_order c
  /\ c_std c' = c_std c /\ c_scope c' = c_scope c /\ c_gram c' = c_gram c
  /\ forall k b, c_get k c = Ret b -> exists b', c_get k c' = Ret b' /\ same_block b b'.
