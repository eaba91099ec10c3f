(** Specification vocabulary for looking over all blocks of a collection. *)
From Coq Require Import String Ascii List NArith ZArith Bool.
From Verif Require Import PyBase StarBlockModel LoopModel LoopSpec CollectionModel CollectionSpec.
Import ListNotations.

(** [v] is a value of [name] in one of the visible blocks, or a member of one that is
    a list. *)
Definition occurs (c : coll) (name : str) (v : value) : Prop :=
  exists k b w, In k (c_vis c) /\ In (k, b) (c_dict c) /\ has_key name b = true /\ get_item name b = Ret w /\
    ((v = w /\ w <> VNone /\ forall l, w <> VList l /\ w <> VSL l) \/ exists l, (w = VList l \/ w = VSL l) /\ In v l).

(** No two entries are the same value. *)
Definition all_different (l : list value) : Prop :=
  forall i j a b, (i < j)%nat -> nth_error l i = Some a -> nth_error l j = Some b -> ~ same_value a b.

(** All items of all visible blocks can be read. *)
Definition readable (c : coll) : Prop :=
  forall k b n, In k (c_vis c) -> In (k, b) (c_dict c) -> has_key n b = true -> exists w, get_item n b = Ret w.
