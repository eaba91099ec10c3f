(** What a file written in a given order should be. *)
From Coq Require Import String Ascii List NArith ZArith Bool Permutation.
From Verif Require Import PyBase StarBlockModel StarBlockSpec CollectionModel CollectionSpec ParseSpec FileSpec.
Import ListNotations.

(** The collection [c'] has exactly the blocks of [c] that are listed, with the same names
    and contents; data blocks come in the order of the list, each followed by its frames
    in the order of the list. *)
Definition same_listed (order : list str) (c c' : coll) : Prop :=
  Permutation (ckeys c') order /\
  (forall k, In k order -> root c k -> entry_of c' k = entry_of c k) /\
  (forall r x, In x order -> root c r -> below c r x ->
     exists i q, entry_of c x = Some (PC i q) /\ entry_of c' x = Some (PC i (Some r))) /\
  (exists tops frames,
     without (fun x => ~ root c x) order tops /\
     (forall r, In r tops -> without (fun x => ~ below c r x) order (frames r)) /\
     c_order c' = concat (map (fun r => r :: frames r) tops)) /\
  (forall k b, In k order -> c_get k c = Ret b -> exists b', c_get k c' = Ret b' /\ StarBlockSpec.WF b' /\ same_read b b' /\
     Forall2 (same_place b b') (b_order b) (b_order b')).
(** With every frame its data block is listed, and what is between the two. *)
Definition closed_list (order : list str) (c : coll) : Prop := forall p x, In x order -> inside c p x -> In p order.
(** [x] is listed more than once. *)
Definition listed_twice (x : str) (order : list str) : Prop := exists p q r, order = p ++ x :: q ++ x :: r.
(** Names that a list puts into the text: data blocks, and frames whose data block is
    listed as well. *)
Definition placed (c : coll) (order : list str) (x : str) : Prop := In x order /\ (root c x \/ exists r, In r order /\ root c r /\ below c r x).
