(** Names of definitions in DDL1 dictionaries. *)
From Coq Require Import String Ascii List NArith ZArith Bool.
From Verif Require Import PyBase StarBlockModel CollectionModel CollectionSpec.
Import ListNotations.

(** The texts that are the value of an item: one, or those of a list. *)
Inductive texts_of : value -> list str -> Prop :=
| texts_one s : texts_of (VStr s) [s]
| texts_list l : texts_of (VList (map VStr l)) l
| texts_star l : texts_of (VSL (map VStr l)) l.
(** The names a definition is for; none if it has no _name. *)
Inductive defines : block -> list str -> Prop :=
| defines_some b v l : get_item (u "_name") b = Ret v -> texts_of v l -> l <> [] -> defines b l
| defines_none b : get_item (u "_name") b = Raise KeyErr -> defines b [].
(** Two dictionaries that define nothing twice. *)
Definition nothing_twice (n c : coll) : Prop :=
  forall k b k' b' l l', In (k, b) (c_dict n) -> In (k', b') (c_dict c) -> defines b l -> defines b' l' -> forall s, In s l -> ~ In s l'.
Definition all_define (c : coll) : Prop := forall k b, In (k, b) (c_dict c) -> exists l, defines b l.
(** A data block of that name, that is not a save frame. *)
Definition top_level (k : str) (c : coll) : Prop := In k (c_lower c) /\ In k (c_vis c) /\ exists id, In (k, PC id None) (c_child c).
(** Data blocks only. *)
Definition flat (c : coll) : Prop := forall k e, In (k, e) (c_child c) -> pc_parent e = None.
(** Dictionaries that have no block and no definition in common. *)
Definition apart (a b : coll) : Prop := (forall k, In k (ckeys a) -> ~ In k (ckeys b)) /\ nothing_twice a b.
(** A file of definitions that can be added to a collection of that standard. *)
Record addable (s : standard) (n : coll) : Prop := {
  ad_wf : CWF n;
  ad_ids : forall k e, In (k, e) (c_child n) -> lower (pc_id e) = k /\ pc_id e <> u "" /\ (length (pc_id e) <= 75)%nat /\ fix_name true (pc_id e) = pc_id e;
  ad_flat : flat n;
  ad_names : forall k b, In (k, b) (c_dict n) -> s = StdCif -> forall x, In x (b_keys b) -> (length x <= 75)%nat;
  ad_define : all_define n }.
(** The same contents, whatever the settings. *)
Definition same_contents (a b : block) : Prop := b_data b = b_data a /\ b_loops b = b_loops a /\ b_order b = b_order a /\ b_true b = b_true a.
