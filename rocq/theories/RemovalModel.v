(** Model of the check before an item is removed: CifDic.validate_remove_parent_child
    (src/CifFile_module.nw 2462-2472), for dictionaries in DDL2 (1928-1930).  As in
    ValidateModel.v the block is a table, and names in definitions are texts.  No proofs here. *)
From Coq Require Import String Ascii List NArith Bool.
From Verif Require Import PyBase StarBlockModel ValidateModel.
Import ListNotations.

(** The loop 2469-2471. *)
Fixpoint first_child (whole : table) (l : list str) : result :=
  match l with
  | [] => RTrue
  | c :: r => if tmem c whole then RFalse [] [c] else first_child whole r
  end.
Definition validate_remove (d : cifdic) (name : str) (whole : table) : outcome result :=
  match dget str_eqb (lower name) (d_defs d) with
  | None => Ret RNone
  | Some def =>
      match tget (d_child_spec d) def with
      | None => Ret RNone
      | Some spec => obind (names_of spec) (fun cs => Ret (first_child whole cs))
      end
  end.
