(** Specification for C135: names and blocks that can be put in a collection. *)
From Coq Require Import String Ascii List NArith Bool.
From Verif Require Import PyBase StarBlockModel CollectionModel CollectionSpec.
Import ListNotations.

(** The key under which a name is put: spaces and tabs become underlines, capitals
    small letters. *)
Definition key_of (name : str) : str := lower (map (fun x => if (x =? 32)%N || (x =? 9)%N then 95%N else x) name).
Definition underlined (name : str) : str := map (fun x => if (x =? 32)%N || (x =? 9)%N then 95%N else x) name.

(** A name and a block that a collection with the standard [sd] takes. *)
Definition takes (sd : standard) (x : str * block) : Prop :=
  (length (fst x) <= 75)%nat /\ (sd = StdCif -> forall n, In n (b_keys (snd x)) -> (length n <= 75)%nat).

(** The block [b] is in [c] at the top, under the name [name]. *)
Definition holds_top (c : coll) (name : str) (b : block) : Prop :=
  c_get (key_of name) c = Ret b /\ entry_of c (key_of name) = Some (PC (underlined name) None).

(** [c'] is [c] with the blocks [l] after its own. *)
Definition extended (c : coll) (l : list (str * block)) (c' : coll) : Prop :=
  (forall n b, In (n, b) l -> holds_top c' n (stored c b)) /\
  (forall x b, In (x, b) (c_dict c) -> c_get x c' = Ret b) /\
  (forall x e, entry_of c x = Some e -> entry_of c' x = Some e) /\
  c_order c' = c_order c ++ map (fun x => key_of (fst x)) l /\
  length (ckeys c') = (length (ckeys c) + length l)%nat /\
  c_std c' = c_std c /\ c_uni c' = c_uni c /\ c_scope c' = c_scope c.
