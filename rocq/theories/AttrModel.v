(** Model of reading an attribute of a packet that knows its dictionary:
    StarPacket.__getattr__ (src/StarFile.nw 1313-1330), for the packets that
    GetKeyedSemanticPacket and GetMultiKeyedSemanticPacket return (SemanticModel.v).

    [derive name b] is d.derive_item(name,c,store_value=True): the block with the
    values it stored, or what it raises (see DeriveModel.v); nothing else is assumed of
    it.  [n] is python's limit for nested calls.  Simplification: as in SemanticModel.v,
    the block reads its items as it does without a dictionary.  No proofs here. *)
From Coq Require Import String Ascii List NArith Bool.
From Verif Require Import PyBase StarBlockModel LoopModel ValidateModel TreeModel KeyModel SemanticModel.
Import ListNotations.
Open Scope string_scope.
Open Scope list_scope.

(** dict([(v,(getattr(self,v),True)) for v in k]) (1328); [get] is getattr, with the
    block as it is left. *)
Fixpoint key_dict (get : str -> block -> outcome (value * block)) (ks : list str) (b : block) (acc : list (str * (value * bool)))
  : outcome (list (str * (value * bool)) * block) :=
  match ks with
  | [] => Ret (acc, b)
  | k :: r => obind (get k b) (fun x => key_dict get r (snd x) (dset str_eqb k (fst x, true) acc))
  end.

(** __getattr__, and what python looks up before it: attributes have names in lower
    case.  The names of 1317 are always there in such a packet. *)
Fixpoint read_attr (n : nat) (repr : value -> str) (derive : str -> block -> outcome block) (p : semantic) (name : str) (b : block)
  : outcome (value * block) :=
  match dget str_eqb (lower name) (s_atts p) with
  | Some v => Ret (v, b)
  | None =>
      match n with
      | O => Raise RecursionErr
      | S n' =>
          obind (derive name b) (fun b1 =>
          obind (key_dict (read_attr n' repr derive p) (s_key p) b1 []) (fun x =>
          obind (get_compound_packet repr (fst x) (snd x)) (fun full =>
          obind (p_attr name full) (fun v => Ret (v, snd x)))))
      end
  end.
