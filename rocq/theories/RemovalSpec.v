(** Specification for C136: children named in a definition, and items in a block. *)
From Coq Require Import String Ascii List NArith Bool.
From Verif Require Import PyBase StarBlockModel ValidateModel.
Import ListNotations.

(** The block has an item of this name, in whatever case. *)
Definition present (whole : table) (name : str) : Prop := exists v, In (lower name, v) whole.
(** The definition of [name] names the children [cs]: one as a text, or several as a list. *)
Definition children (d : cifdic) (name : str) (cs : list str) : Prop :=
  exists def v, dget str_eqb (lower name) (d_defs d) = Some def /\ dget str_eqb (lower (d_child_spec d)) def = Some v /\
    ((exists c, v = VStr c /\ cs = [c]) \/ v = VList (map VStr cs)).
(** It names none. *)
Definition childless (d : cifdic) (name : str) : Prop :=
  forall def, dget str_eqb (lower name) (d_defs d) = Some def -> dget str_eqb (lower (d_child_spec d)) def = None.
