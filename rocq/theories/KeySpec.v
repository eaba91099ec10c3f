(** Loop categories, their items and their keys. *)
From Coq Require Import String Ascii List NArith Bool.
From Verif Require Import PyBase ValidateModel TreeSpec.
Import ListNotations.

(** A loop category directly below a loop category. *)
Definition loop_child (d : list (str * table)) (p c : str) : Prop := looped d p /\ looped d c /\ child d c p.
Inductive loop_below (d : list (str * table)) (p : str) : str -> Prop :=
| lb_one c : loop_child d p c -> loop_below d p c
| lb_more c c' : loop_below d p c -> loop_child d c c' -> loop_below d p c'.
Definition item_scope (t : table) : Prop := tget (u "_definition.scope") t = None \/ tget (u "_definition.scope") t = Some (VStr (u "Item")).
(** An item of category [c], other than a key, with object id [o] and data name [nm]. *)
Definition holds (d : list (str * table)) (c o nm : str) : Prop :=
  exists k t s, In (k, t) d /\ item_scope t /\ child d k c /\ tget (u "_name.object_id") t = Some (VStr s) /\ lower s = o /\ tget (u "_definition.id") t = Some (VStr nm)
  /\ tget (u "_type.purpose") t <> Some (VStr (u "Key")).
(** The same for any item; missing texts count as empty. *)
Definition reads (name : str) (t : table) (s : str) : Prop := tget name t = Some (VStr s) \/ (tget name t = None /\ s = []).
Definition owns (d : list (str * table)) (c o nm : str) : Prop :=
  exists k t s s', In (k, t) d /\ item_scope t /\ reads (u "_name.category_id") t s /\ lower s = c /\ reads (u "_name.object_id") t s' /\ lower s' = o /\ reads (u "_definition.id") t nm.

(** The key of a loop category: a name, or several. *)
Inductive key_is (t : table) : list str -> Prop :=
| ki_one s : tget (u "_category_key.name") t = Some (VStr s) -> key_is t [s]
| ki_list l : tget (u "_category_key.name") t = Some (VList (map VStr l)) -> key_is t l
| ki_sl l : tget (u "_category_key.name") t = Some (VSL (map VStr l)) -> key_is t l
| ki_id s : tget (u "_category_key.name") t = None -> tget (u "_category.key_id") t = Some (VStr s) -> key_is t [s].

(** Following links from a key: each name of the list is the one that the name before it
    is linked to. *)
Inductive links (d : list (str * table)) : str -> list str -> Prop :=
| li_end k : links d k []
| li_step k t s l : In (lower k, t) d -> tget (u "_name.linked_item_id") t = Some (VStr s) -> links d s l -> links d k (s :: l).

(** The number of loop categories above a loop category. *)
Inductive loops_above (d : list (str * table)) : str -> nat -> Prop :=
| la_none c t s : In (c, t) d -> tget (u "_name.category_id") t = Some (VStr s) -> ~ (category d (lower s) /\ looped d (lower s)) -> loops_above d c 0
| la_more c t s n : In (c, t) d -> tget (u "_name.category_id") t = Some (VStr s) -> category d (lower s) -> looped d (lower s) -> loops_above d (lower s) n -> loops_above d c (S n).
(** The names of a key are items of the category they are the key of. *)
Definition own_items (d : list (str * table)) : Prop :=
  forall c t ks k, In (c, t) d -> category d c -> looped d c -> key_is t ks -> In k ks -> exists t' s, In (lower k, t') d /\ tget (u "_name.category_id") t' = Some (VStr s) /\ lower s = c.
(** A name is at most once in a key, and of one category only. *)
Definition keys_distinct (d : list (str * table)) : Prop :=
  (forall c t ks, In (c, t) d -> looped d c -> key_is t ks -> NoDup ks)
  /\ forall c t ks c' t' ks' k, In (c, t) d -> In (c', t') d -> looped d c -> looped d c' -> key_is t ks -> key_is t' ks' -> In k ks -> In k ks' -> c = c'.
