(** Model of merge_dic (src/CifFile_module.nw 4352-4374), for dictionaries that are
    already read, and of the single_block case of BlockCollection.merge
    (src/StarFile.nw 738-742).  The dictionary that is made of the result in the end
    is not part of it.  No proofs here. *)
From Coq Require Import String Ascii List NArith ZArith Bool.
From Verif Require Import PyBase StarBlockModel ScanModel CollectionModel MergeModel CollMergeModel.
Import ListNotations.

Definition this_dictionary : str := u "on_this_dictionary".

(** 4362-4364 *)
Fixpoint merge_blocks (mode : merge_mode) (rest : list coll) (base : coll) : coll * outcome unit :=
  match rest with
  | [] => (base, Ret tt)
  | n :: r => match coll_merge (Some mode) None (u "") (Some (u "_name")) n base with
              | (c, Ret _) => merge_blocks mode r c
              | (c, Raise e) => (c, Raise e)
              end
  end.

(** self[single_block[0]].merge(new_bc[single_block[1]],mode,...), StarFile.nw 738-742.
    match_function is not used by the merge of blocks. *)
Definition merge_single (mode : merge_mode) (mine other : str) (att : list str) (n base : coll) : coll * outcome unit :=
  match c_get mine base with
  | Raise e => (base, Raise e)
  | Ret b =>
      match c_get other n with
      | Raise e => (base, Raise e)
      | Ret nb => match block_merge mode att nb b with (b', r) => (set_block mine b' base, r) end
      end
  end.
(** 4366-4371; dic.keys()[0] of a dictionary without blocks raises. *)
Fixpoint merge_mains (mode : merge_mode) (mine : str) (rest : list coll) (base : coll) : coll * outcome unit :=
  match rest with
  | [] => (base, Ret tt)
  | n :: r =>
      match c_vis n with
      | [] => (base, Raise IndexErr)
      | other :: _ =>
          match merge_single mode mine other [u "_item.name"] n base with
          | (c, Ret _) => merge_mains mode mine r c
          | (c, Raise e) => (c, Raise e)
          end
      end
  end.

(** merge_dic: the first dictionary after the merge, and what happened. *)
Definition merge_dic (mode : merge_mode) (base : coll) (rest : list coll) : coll * outcome unit :=
  if c_has this_dictionary base then merge_blocks mode rest base
  else match c_vis base with
       | [mine] => merge_mains mode mine rest base
       | _ => (base, Ret tt)
       end.
