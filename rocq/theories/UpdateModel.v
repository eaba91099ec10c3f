(** Model of the methods get, update and copy of collections of blocks
    (src/StarFile.nw 303-304, 361-365, 374-389).

    Simplifications: update is given pairs of names and blocks, as from a python
    dictionary, or another collection (not the same one, whose list of keys would change
    while it is gone through); a copy of a block is taken to have the items of the block.
    No proofs here. *)
From Coq Require Import String Ascii List NArith Bool.
From Verif Require Import PyBase StarBlockModel ScanModel CollectionModel.
Import ListNotations.

(** get(key,default) (361-365); [d] is the default. *)
Definition get_or (key : str) (d : option block) (c : coll) : outcome (option block) :=
  if c_has key c then obind (c_get key c) (fun b => Ret (Some b)) else Ret d.

(** __setitem__ (303-304). *)
Definition c_put (key : str) (b : block) (c : coll) : coll * outcome str := new_block key b true None c.

(** update (387-389): the collection as it is left, and what was raised. *)
Fixpoint update_pairs (l : list (str * block)) (c : coll) : coll * outcome unit :=
  match l with
  | [] => (c, Ret tt)
  | (k, b) :: r =>
      match c_put k b c with
      | (c', Ret _) => update_pairs r c'
      | (c', Raise e) => (c', Raise e)
      end
  end.
(** ... with the blocks of a collection: adict[key] is looked up before each assignment. *)
Fixpoint update_keys (n : coll) (ks : list str) (c : coll) : coll * outcome unit :=
  match ks with
  | [] => (c, Ret tt)
  | k :: r =>
      match c_get k n with
      | Raise e => (c, Raise e)
      | Ret b =>
          match c_put k b c with
          | (c', Ret _) => update_keys n r c'
          | (c', Raise e) => (c', Raise e)
          end
      end
  end.
Definition c_update (n c : coll) : coll * outcome unit := update_keys n (c_keys n) c.

(** copy (374-385).  [cif]: the blocks are CifBlocks, whose copy (src/CifFile_module.nw
    257-259) asks for the attribute im_class that methods do not have in python 3.  381:
    SetTemplate is given a dictionary or a list, and process_template (2948-2955) looks for
    its method seek. *)
Definition c_copy (cif : bool) (c : coll) : outcome coll :=
  if cif && negb (Nat.eqb (length (c_dict c)) 0) then Raise AttributeErr
  else match update_pairs (c_dict c) (new_coll StdCif Instance false) with
       | (_, Raise e) => Raise e
       | (c', Ret _) => Raise AttributeErr
       end.
