(** What the checks of BlockCheckModel.v should decide. *)
From Coq Require Import String Ascii List NArith Bool.
From Verif Require Import PyBase StarBlockModel ValidateModel.
Import ListNotations.

(** The texts of a value: one, or several in a list. *)
Inductive spelled : value -> list str -> Prop :=
| sp_one s : spelled (VStr s) [s]
| sp_list l : spelled (VList (map VStr l)) l
| sp_sl l : spelled (VSL (map VStr l)) l.
(** The definition of a looped name asks for [r] to be in the loop. *)
Definition requires (d : cifdic) (names : list str) (r : str) : Prop :=
  exists a def v l s, In a names /\ dic_get d a = Ret def /\ tget (d_list_ref d) def = Some v /\ spelled v l /\ In s l /\ r = lower s.
(** A name with an underscore at its end stands for all names beginning like it. *)
Definition group (r : str) : Prop := exists p, r = p ++ [95%N].
Definition begins (r n : str) : Prop := exists t, n = r ++ t.
(** The name itself, or one of its alternates. *)
Definition supplied (d : cifdic) (names : list str) (r : str) : Prop :=
  In r names \/ exists alts x, get_alternates d r false = Ret alts /\ In x alts /\ In x names.

(** A category that the dictionary wants in every block. *)
Definition wanted (d : cifdic) (c : str) : Prop :=
  exists k t, In (k, t) (d_defs d) /\ tget (u "_category.mandatory_code") t = Some (VStr (u "yes")) /\ tget (u "_category.id") t = Some (VStr c).
(** An item of the block is of the category. *)
Definition has_category (d : cifdic) (t : table) (c : str) : Prop :=
  exists k v def, In (k, v) t /\ dic_get d k = Ret def /\ tget (d_cat_spec d) def = Some (VStr c).

(** The scope of a definition block. *)
Inductive in_scope (t : table) (default : str) : str -> Prop :=
| is_dic : tget (u "_dictionary.title") t <> None -> in_scope t default (u "Dictionary")
| is_given s : tget (u "_dictionary.title") t = None -> tget (u "_definition.scope") t = Some (VStr s) -> in_scope t default s
| is_default : tget (u "_dictionary.title") t = None -> tget (u "_definition.scope") t = None -> in_scope t default default.
