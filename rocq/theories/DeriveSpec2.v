(** What is wanted of items that are present, of methods and of defaults by index. *)
From Coq Require Import String Ascii List NArith ZArith Bool.
From Verif Require Import PyBase StarBlockModel ValidateModel TreeModel DeriveModel DeriveSpec.
Import ListNotations.

Definition full_stop : value := VStr (u ".").
(** No part of the item is unknown or inapplicable. *)
Definition known_value (v : value) : Prop :=
  match v with VList l | VSL l => ~ In question l /\ ~ In full_stop l | _ => v <> question /\ v <> full_stop end.
(** Something is known or inapplicable: not just question marks. *)
Definition not_all_unknown (v : value) : Prop :=
  match v with VList l | VSL l => exists x, In x l /\ x <> question | _ => v <> question end.
Definition known_to (d : ddict) (k : str) : Prop := exists t, def_of d k = Ret t.
(** The value that an item in the block has for a reader. *)
Inductive shown (d : ddict) (provide : bool) (b : block) (k : str) : value -> Prop :=
| shown_undefined v f : get_full k b = Ret (v, f) -> ~ known_to d k -> shown d provide b k v
| shown_off v f : get_full k b = Ret (v, f) -> provide = false -> shown d provide b k v
| shown_value v : get_full k b = Ret (v, true) -> shown d provide b k v
| shown_converted raw v : get_full k b = Ret (raw, false) -> provide = true -> known_value raw -> change_type d k raw = Ret v -> shown d provide b k v
| shown_partly v : get_full k b = Ret (v, false) -> provide = true -> ~ known_value v -> not_all_unknown v -> shown d provide b k v.
(** The method gives this value for this block; what it asks for is there. *)
Inductive gives (d : ddict) (b : block) : prog -> value -> Prop :=
| gives_done v : gives d b (Done v) v
| gives_ask n next w v : n <> u "saves" -> shown d true b n w -> gives d b (next w) v -> gives d b (Ask n next) v
| gives_may n next w v : n <> u "saves" -> shown d true b n w -> gives d b (next (Some w)) v -> gives d b (May n next) v
| gives_none n next v : has_key n b = false -> gives d b (next None) v -> gives d b (May n next) v
| gives_has n next v : gives d b (next (has_or_alias d n b)) v -> gives d b (Has n next) v.
(** The entry for a code: the one with the first index that is the same but for capitals. *)
Definition entry (index : list str) (vals : list value) (code : str) (v : value) : Prop :=
  exists before name after, index = before ++ name :: after /\ lower name = lower code /\ (forall x, In x before -> lower x <> lower code) /\ nth_error vals (length before) = Some v.
(** Something of the category is in the block, or nothing can put it there. *)
Definition settled (d : ddict) (cat : str) (b : block) : Prop :=
  (exists k, In k (cat_names d cat) /\ has_or_alias d k b = true) \/ not_built d cat.
