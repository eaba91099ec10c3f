(** What the order of a written dictionary should be. *)
From Coq Require Import String Ascii List NArith Bool.
From Verif Require Import PyBase ValidateModel TreeModel TreeSpec OutlineModel.
Import ListNotations.

(** c stands before a in the list. *)
Definition before (l : list str) (c a : str) : Prop := exists x y z, l = x ++ c :: y ++ a :: z.
(** The blocks are named by their definition ids, every definition is an item or a
    category, and the data block is not a definition. *)
Record plain (b : book) : Prop := {
  p_wf : well_formed (id_table b);
  p_names : forall n i t, In (n, i, t) (bk_defs b) -> n = i /\ i <> [];
  p_scope : forall k t, In (k, t) (id_table b) -> tget (u "_definition.scope") t = None \/ tget (u "_definition.scope") t = Some (VStr (u "Item")) \/ tget (u "_definition.scope") t = Some (VStr (u "Category"));
  p_top : ~ In (bk_top b) (map fst (id_table b)) /\ tget (u "_name.category_id") (bk_top_table b) = None /\ lower (bk_top b) = bk_top b
}.
(** The definitions outside the tree: all name a category, a category is not within
    another category, and the others have a name with one period. *)
Record tidy (d : list (str * table)) (root : str) : Prop := {
  t_named : forall a, loose d root a -> exists t s, In (a, t) d /\ tget (u "_name.category_id") t = Some (VStr s);
  t_flat : forall a c, loose d root a -> category d a -> child d a c -> ~ category d (lower c);
  t_dot : forall a c, loose d root a -> ~ category d a -> child d a c -> ~ category d (lower c) ->
          exists x y, a = x ++ 46%N :: y /\ x <> [] /\ ~ In 46%N x /\ ~ In 46%N y
}.
