(** What a block has to be like for a DDLm dictionary. *)
From Coq Require Import String Ascii List NArith ZArith QArith Bool.
From Verif Require Import PyBase LoopSpec NumberSpec ValidateModel ValidateSpec BlockCheckSpec.
Import ListNotations.

(** A text that begins with a number that has a standard uncertainty [w]. *)
Definition su_of (a : value) (w : Q) : Prop := exists s n, a = VStr s /\ longest n s /\ uncertainty n = Some w.
Definition has_su (a : value) : Prop := exists w, su_of a w.

(** The contents that are numbers. *)
Inductive number_kind : str -> Prop :=
| nk_count : number_kind (u "Count") | nk_index : number_kind (u "Index") | nk_integer : number_kind (u "Integer") | nk_real : number_kind (u "Real") | nk_imag : number_kind (u "Imag")
| nk_complex : number_kind (u "Complex") | nk_binary : number_kind (u "Binary") | nk_hexadecimal : number_kind (u "Hexadecimal") | nk_octal : number_kind (u "Octal").

(** The definition of an item lists its values. *)
Definition enumerates (d : cifdic) (k : str) (l : list value) : Prop :=
  exists def e, dic_get d k = Ret def /\ tget (d_enum_spec d) def = Some e /\ (e = VList l \/ e = VSL l).
(** Each value of an item with an enumeration is in it. *)
Definition values_listed (d : cifdic) (t : table) : Prop :=
  forall k v vs l a, In (k, v) t -> enumerates d k l -> held v vs -> In a vs -> listed l a.
(** The uppermost loop category of an item. *)
Definition uppermost (d : cifdic) (a p : str) : Prop :=
  exists def c, dic_get d a = Ret def /\ tget (d_cat_spec d) def = Some (VStr c) /\ dget str_eqb (lower c) (d_lookup d) = Some p.
(** All names of a loop are of one uppermost category, and one of the names of its key
    is in the loop. *)
Definition loop_fits (d : cifdic) (tbl : list (str * list (list value))) (names : list str) : Prop :=
  exists p key rest k, (forall a, In a names -> uppermost d a p) /\ dget str_eqb p tbl = Some (map VStr key :: rest) /\ In k key /\ In k names.
(** The names that a table of scopes has for a block. *)
Definition names_for (sc : list (str * list str)) (t : table) (a : str) : Prop :=
  exists s names, in_scope t (u "Item") s /\ dget str_eqb s sc = Some names /\ In a names.

(** What the checks need to give an answer at all: known items, enumerations and
    values that can be gone through, no attribute with the odd name, categories of
    looped names, a key for each uppermost category, and an entry for the scope. *)
Definition answerable_item (d : cifdic) (k : str) (v : value) : Prop :=
  exists def vs, dic_get d k = Ret def /\ held v vs /\ tget (u "self.primitive_type") def = None
  /\ (tget (d_enum_spec d) def = None \/ exists l, enumerates d k l).
Definition answerable_loop (d : cifdic) (tbl : list (str * list (list value))) (names : list str) : Prop :=
  names <> [] /\ (forall a, In a names -> exists def c, dic_get d a = Ret def /\ tget (d_cat_spec d) def = Some (VStr c))
  /\ forall a p, In a names -> uppermost d a p -> exists key rest, dget str_eqb p tbl = Some (map VStr key :: rest).
Definition answerable_scope (sc : list (str * list str)) (t : table) : Prop :=
  sc = [] \/ exists s names, in_scope t (u "Item") s /\ dget str_eqb s sc = Some names.
