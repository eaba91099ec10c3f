(** Model of Validate on a file with save frames (src/CifFile_module.nw 3857-3907), for data
    files and for dictionaries (isdic).  ReportModel.validate is the same loop over a list of
    blocks.  The dictionary checked against is the record of its checks of
    ValidBlockModel.v; the scope of a block is handed to run_block_validation, which does
    not use it (2664-2667), so it is left out.  The lists of values that 3876-3884 collect
    are left out: they are for DDL2 dictionaries with links, of which none can be loaded
    with python 3 (C89).  No proofs here. *)
From Coq Require Import String Ascii List NArith ZArith Bool.
From Verif Require Import PyBase StarBlockModel ValidateModel ValidBlockModel ReportModel CollectionModel.
Import ListNotations.

(** 3886-3904: for block in check_file.keys() *)
Fixpoint check_keys (d : vdic) (keys : list str) (c : coll) : coll * outcome results :=
  match keys with
  | [] => (c, Ret ([], []))
  | k :: r =>
      match c_get k c with
      | Raise e => (c, Raise e)
      | Ret b =>
          match check_one d b with
          | (b', un, o) =>
              let c' := set_dict (dset str_eqb (lower k) b' (c_dict c)) c in
              match o with
              | Raise e => (c', Raise e)
              | Ret x => let (c2, o2) := check_keys d r c' in
                         (c2, obind o2 (fun y => Ret ((k, x) :: fst y, (k, un) :: snd y)))
              end
          end
      end
  end.
(** 3872-3875: the first data block is looked up, and all blocks are made visible. *)
Definition validate_coll (isdic : bool) (d : vdic) (c : coll) : coll * outcome results :=
  if isdic then
    let c1 := set_scope Instance c in
    match c_keys c1 with
    | [] => (c1, Raise IndexErr)
    | _ :: _ => let c2 := set_scope Dictionary c1 in check_keys d (c_keys c2) c2
    end
  else check_keys d (c_keys c) c.
