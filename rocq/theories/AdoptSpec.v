(** What a dictionary has after taking over a category. *)
From Coq Require Import String Ascii List NArith PeanoNat Bool.
From Verif Require Import PyBase ValidateModel CollectionModel AdoptModel.
Import ListNotations.
Open Scope nat_scope.

(** A dictionary in order: ids in lower case that stand for blocks with content. *)
Record orderly (d : dic) : Prop := {
  o_lower : forall k b, In (k, b) (d_ids d) -> lower k = k;
  o_block : forall k b, In (k, b) (d_ids d) -> exists t, dget str_eqb (lower b) (d_blocks d) = Some t /\ t <> [];
  o_once : NoDup (map fst (d_ids d)) }.
(** The definition of the key [a] in the dictionary to take from: it is named by its id
    in some case, and the id can be a name of a block. *)
Definition source_of (src : dic) (a : str) (t : table) : Prop :=
  (exists b, In (a, b) (d_ids src) /\ dget str_eqb (lower b) (d_blocks src) = Some t)
  /\ (exists i, tget (u "_definition.id") t = Some (VStr i) /\ lower i = a)
  /\ length a <= 75 /\ (forall c, In c a -> c <> 32%N /\ c <> 9%N).
Definition in_category (cat : str) (t : table) : Prop := exists c, tget (u "_name.category_id") t = Some (VStr c) /\ lower c = lower cat.
Record takeable (src : dic) : Prop := {
  t_orderly : orderly src;
  t_source : forall a, In a (map fst (d_ids src)) -> exists t, source_of src a t;
  t_text : forall a t v, source_of src a t -> tget (u "_name.category_id") t = Some v -> exists c, v = VStr c }.
(** The keys that are taken: the category and its members. *)
Definition taken (src : dic) (cat a : str) : Prop := exists t, source_of src a t /\ (a = lower cat \/ in_category cat t).
