(** What is wanted of categories that are built from others. *)
From Coq Require Import String Ascii List NArith ZArith Bool.
From Verif Require Import PyBase StarBlockModel LoopModel LoopSpec ValidateModel TreeModel DeriveModel.
Import ListNotations.

(** No two rows have the same key. *)
Definition unique (keys : list value) : Prop := forall i j x y, nth_error keys i = Some x -> nth_error keys j = Some y -> (same_value x y <-> i = j).
(** Rows (key, value) of two categories: the pairs of keys of all rows with equal values,
    those of the first row first. *)
Definition pulled (rows0 rows1 : list (value * value)) : list (value * value) :=
  flat_map (fun r => map (fun s => (fst r, fst s)) (filter (fun s => py_eq (snd r) (snd s)) rows1)) rows0.
(** An item of category [from] that has the object name of an item of category [to]. *)
Record copied := mkCopied { cp_name : str; cp_from : str; cp_to : str; cp_vals : list value }.
Definition can_copy (d : ddict) (ask : str -> act value) (b : block) (from to : str) (keys : list value) (c : copied) : Prop :=
  dd_object d (lower from) (lower (cp_name c)) = Ret (cp_from c) /\ dd_object d (lower to) (lower (cp_name c)) = Ret (cp_to c) /\
  ask (cp_from c) b = (b, Ok (VList (cp_vals c))) /\ length (cp_vals c) = length keys.
(** The column has, for each key, the value in the row with that key. *)
Definition follows (keys rows : list value) (c : copied) (col : str * value) : Prop :=
  fst col = cp_to c /\ exists l, snd col = VList l /\ Forall2 (fun k v => exists k', same_value k k' /\ In (k', v) (combine keys (cp_vals c))) rows l.

(** One side of a pullback or filter: the item whose values are compared, the object that
    takes the keys and its full name, the category of the item and its key, the values and
    keys in the block, and what is copied. *)
Record side := mkSide { s_item : str; s_new : str; s_full : str; s_cat : str; s_key : str; s_vals : list value; s_keys : list value; s_copied : list copied }.
Definition side_ok (d : ddict) (ask : str -> act value) (b : block) (cat : str) (skip : list str) (s : side) : Prop :=
  category_of d (s_item s) = Ret (s_cat s) /\
  (exists tc, def_of d (s_cat s) = Ret tc /\ tget (u "_category.key_id") tc = Some (VStr (s_key s))) /\
  dd_object d cat (s_new s) = Ret (s_full s) /\
  ask (s_item s) b = (b, Ok (VList (s_vals s))) /\ ask (s_key s) b = (b, Ok (VList (s_keys s))) /\
  unique (s_keys s) /\ length (s_vals s) = length (s_keys s) /\
  projected d (s_cat s) cat skip = Ret (map cp_name (s_copied s)) /\ Forall (can_copy d ask b (s_cat s) cat (s_keys s)) (s_copied s).
Definition rows_of (s : side) : list (value * value) := combine (s_keys s) (s_vals s).
(** The filter values of a definition. *)
Definition filter_values (d : ddict) (t : table) (fvals : list value) : Prop :=
  (tget (u "_category_construct_local.integer_filter") t = None /\ tget (u "_category_construct_local.text_filter") t = Some (VList fvals)) \/
  (exists il, tget (u "_category_construct_local.integer_filter") t = Some (VList il) /\ Forall2 (fun x y => dd_int d x = Ret y) il fvals /\ tget (u "_category_construct_local.text_filter") t = None).
(** A text or a number. *)
Definition simple (v : value) : Prop := exists s, v = VStr s \/ v = VNum s.
(** Storing the columns, and then going on with them. *)
Definition stored (d : ddict) (cat : str) (cols : list (str * value)) (b : block) : block * dres (list (str * value)) :=
  match store_cat d (VDict cols) cat b with (b1, Ok _) => (b1, Ok cols) | (b1, Err x) => (b1, Err x) end.
