(** What a selection of blocks and a merge of two collections should give. *)
From Coq Require Import String Ascii List NArith ZArith Bool Permutation.
From Verif Require Import PyBase StarBlockModel CollectionModel CollectionSpec.
Import ListNotations.

(** A block sits under the lower-case form of its printed name. *)
Definition plain_ids (n : coll) : Prop := forall k e, In (k, e) (c_child n) -> lower (pc_id e) = k.
(** The table lists a parent before what is inside it. *)
Definition parents_first (t : list (str * pc)) : Prop :=
  forall l1 k e p l2, t = l1 ++ (k, e) :: l2 -> pc_parent e = Some p -> In p (map fst l1).
(** Names that a collection takes as they are. *)
Definition fine_name (id : str) : Prop := (length id <= 75)%nat /\ fix_name true id = id.
Definition fine_block (s : standard) (b : block) : Prop := s = StdCif -> forall x, In x (b_keys b) -> (length x <= 75)%nat.
(** The parent of an incoming block. *)
Definition given_parent (parent p : option str) : option str := match p with None => option_map lower parent | Some q => Some q end.

(** A part of a collection: the blocks named, with their contents and names, and
    their parents if these are named too. *)
Definition part_of (names : list str) (c n : coll) : Prop :=
  (forall x b, In (x, b) (c_dict n) <-> In (x, b) (c_dict c) /\ In x (map lower names)) /\
  (forall x e, In (x, e) (c_child n) <-> exists e0, In (x, e0) (c_child c) /\ In x (map lower names) /\ pc_id e = pc_id e0 /\
      forall p, pc_parent e = Some p <-> pc_parent e0 = Some p /\ In p (map lower names)).
