(** What is wanted of reading derived items. *)
From Coq Require Import String Ascii List NArith ZArith Bool.
From Verif Require Import PyBase StarBlockModel ValidateModel TreeModel DeriveModel.
Import ListNotations.

(** The method asks for no names but these. *)
Fixpoint asks (L : list str) (p : prog) : Prop :=
  match p with
  | Done _ | Stop _ => True
  | Ask n next => In n L /\ forall v, asks L (next v)
  | May n next => In n L /\ forall v, asks L (next v)
  | Has n next => forall x, asks L (next x)
  end.
Definition methods_ask (d : ddict) (L : list str) : Prop := forall key p, In p (dd_methods d key) -> asks L p.
(** The table of objects gives no names but these. *)
Definition objects_in (d : ddict) (L : list str) : Prop := forall c o name, dd_object d c o = Ret name -> In name L.
(** All texts that the attributes of the dictionary mention. *)
Definition texts_of (v : value) : list str :=
  match v with
  | VStr s => s :: map (fun c => [c]) s
  | VList l | VSL l => flat_map (fun x => match x with VStr s => [s] | _ => [] end) l
  | VDict l => map fst l
  | _ => []
  end.
Definition dict_names (d : ddict) : list str :=
  map fst (dd_defs d) ++ flat_map (fun kt => flat_map (fun av => texts_of (snd av)) (snd kt)) (dd_defs d).

(** What was there stays: value, spelling and loop. *)
Definition kept (b b' : block) : Prop := forall k e, dget str_eqb k (b_data b) = Some e ->
  dget str_eqb k (b_data b') = Some e /\ dget str_eqb k (b_true b') = dget str_eqb k (b_true b) /\ find_loop k b' = find_loop k b.
(** Categories are not defined as items. *)
Definition categories_apart (d : ddict) : Prop := forall k t c tc, In (k, t) (dd_defs d) ->
  tget (u "_name.category_id") t = Some (VStr c) -> dget str_eqb (lower c) (dd_defs d) = Some tc ->
  exists s, tget (u "_definition.scope") tc = Some s /\ s <> VStr (u "Item").
(** No item is wholly unknown. *)
Definition question : value := VStr (u "?").
Definition no_questions (b : block) : Prop := forall k v f, get_full k b = Ret (v, f) ->
  v <> question /\ forall l, v = VList l \/ v = VSL l -> l = [] \/ exists x, In x l /\ x <> question.

(** The dictionary without its default values. *)
Definition default_attr (a : str) : bool :=
  existsb (str_eqb a) [u "_enumeration.default"; u "_enumeration.def_index_id"; u "_enumeration_default.index"; u "_enumeration_default.value"].
Definition no_defaults (d : ddict) : ddict :=
  mkDD (map (fun kt => (fst kt, filter (fun av => negb (default_attr (fst av))) (snd kt))) (dd_defs d)) (dd_methods d) (dd_conv d) (dd_object d) (dd_set d) (dd_int d).

(** The category has no method and is not built from others; no category is. *)
Definition not_built (d : ddict) (cat : str) : Prop := dd_methods d (lower cat) = [] /\
  forall k t, In (k, t) (dd_defs d) -> tget (u "_category_construct_local.components") t = None /\ tget (u "_category_construct_local.type") t = None.
