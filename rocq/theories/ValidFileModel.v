(** Model of ValidCifFile (src/CifFile_module.nw 3763-3795), a file whose blocks are
    checked against a dictionary.  No proofs here.

    Simplification: the loops of the copied block share their lists of names with
    the block that was given (src/StarFile.nw 1488); here blocks are values. *)
From Coq Require Import String Ascii List NArith ZArith Bool.
From Verif Require Import PyBase StarBlockModel CollectionModel ValidateModel ValidBlockModel.
Import ListNotations.

(** CifBlock.__init__ with data=... (CifFile_module.nw 209-228, StarFile.nw 1461-1488):
    the contents are copied; overwriting, length limit and characterset are those of
    a new block. *)
Definition copied (b : block) : block := mkBlock (b_data b) (b_loops b) (b_order b) (b_true b) true 75 false.
(** ValidCifBlock(data=...,dic=...) (3534-3550) *)
Definition valid_copy (d : vdic) (b : block) : outcome block := valid_init d (copied b).

(** [self.dictionary[name] = ValidCifBlock(data=self.dictionary[name],...)] (3781, 3794-3795);
    [name] is used as it is. *)
Definition make_valid (d : vdic) (name : str) (c : coll) : coll * outcome unit :=
  match dget str_eqb name (c_dict c) with
  | None => (c, Raise KeyErr)
  | Some b => match valid_copy d b with
              | Raise e => (c, Raise e)
              | Ret b' => (set_dict (dset str_eqb name b' (c_dict c)) c, Ret tt)
              end
  end.
(** The loop over self.keys() (3780-3781). *)
Fixpoint make_all_valid (d : vdic) (names : list str) (c : coll) : coll * outcome unit :=
  match names with
  | [] => (c, Ret tt)
  | n :: r => match make_valid d n c with
              | (c', Raise e) => (c', Raise e)
              | (c', Ret _) => make_all_valid d r c'
              end
  end.
(** __init__ (3771-3781) with a dictionary; [c] is what CifFile.__init__ gives. *)
Definition valid_file (d : vdic) (c : coll) : outcome coll :=
  match make_all_valid d (c_keys c) c with (c', Ret _) => Ret c' | (_, Raise e) => Raise e end.
(** NewBlock (3788-3795): the file afterwards.  Nothing is returned. *)
Definition valid_new_block (d : vdic) (name : str) (b : block) (fix_it : bool) (parent : option str) (c : coll) : coll * outcome unit :=
  match new_block name b fix_it parent c with
  | (c', Raise e) => (c', Raise e)
  | (c', Ret _) => make_valid d name c'
  end.
