(** The category tree. *)
From Coq Require Import String Ascii List NArith Bool.
From Verif Require Import PyBase ValidateModel.
Import ListNotations.

(** Definitions with distinct lower-case ids and categories that are texts. *)
Record well_formed (d : list (str * table)) : Prop := {
  w_keys : NoDup (map fst d);
  w_lower : forall k t, In (k, t) d -> lower k = k;
  w_text : forall k t v, In (k, t) d -> tget (u "_name.category_id") t = Some v -> exists s, v = VStr s
}.
(** [a] names [c] as its category. *)
Definition child (d : list (str * table)) (a c : str) : Prop :=
  exists t, In (a, t) d /\ ((exists s, tget (u "_name.category_id") t = Some (VStr s) /\ lower s = lower c) \/ (tget (u "_name.category_id") t = None /\ lower c = [])).
Definition category (d : list (str * table)) (a : str) : Prop := exists t, In (a, t) d /\ tget (u "_definition.scope") t = Some (VStr (u "Category")).
(** [a] is [c] or below it. *)
Inductive under (d : list (str * table)) : str -> str -> Prop :=
| u_self c : under d c c
| u_child c a : child d a c -> under d c a
| u_deep c p a : child d p c -> category d p -> under d p a -> under d c a.
(** No category is below itself: every step down goes to a smaller height. *)
Definition acyclic (d : list (str * table)) (height : str -> nat) : Prop := forall a c, child d a c -> category d a -> (height a < height (lower c))%nat.

(** Not connected to [top]: the category named is not defined as a category, or is
    itself not connected. *)
Inductive loose (d : list (str * table)) (top : str) : str -> Prop :=
| lo_none a c : a <> top -> child d a c -> lower c <> top -> ~ category d (lower c) -> loose d top a
| lo_up a c : a <> top -> child d a c -> lower c <> top -> loose d top (lower c) -> loose d top a.
(** The only definition of class Head. *)
Definition only_head (d : list (str * table)) (top : str) : Prop :=
  forall a, (exists t, In (a, t) d /\ tget (u "_definition.class") t = Some (VStr (u "Head"))) <-> a = top.
(** The names that a name stands for: itself unless it is a category, otherwise
    those its members stand for. *)
Inductive stands_for (d : list (str * table)) : str -> str -> Prop :=
| sf_self a : ~ category d (lower a) -> stands_for d a a
| sf_deep c p a : category d (lower c) -> child d p c -> stands_for d p a -> stands_for d c a.

Definition looped (d : list (str * table)) (a : str) : Prop := exists t, In (a, t) d /\ tget (u "_definition.class") t = Some (VStr (u "Loop")).
(** The uppermost category of a chain of loop categories. *)
Inductive top_loop (d : list (str * table)) : str -> str -> Prop :=
| tl_top c t s : In (c, t) d -> tget (u "_name.category_id") t = Some (VStr s) -> ~ looped d (lower s) -> top_loop d c c
| tl_up c t s p : In (c, t) d -> tget (u "_name.category_id") t = Some (VStr s) -> looped d (lower s) -> top_loop d (lower s) p -> top_loop d c p.

(** Climbing from loop category to loop category goes to smaller ranks, and every
    loop category names a category. *)
Definition rising (d : list (str * table)) (rank : str -> nat) : Prop :=
  forall c t, In (c, t) d -> looped d c -> exists s, tget (u "_name.category_id") t = Some (VStr s) /\ (looped d (lower s) -> (rank (lower s) < rank c)%nat).

(** ** Definition ids *)
(** The id of a block: its category id, otherwise its definition id, otherwise its
    name. *)
Definition id_of (cat_id def_id : str) (b : str * table) (i : str) : Prop :=
  tget cat_id (snd b) = Some (VStr i)
  \/ (tget cat_id (snd b) = None /\ tget def_id (snd b) = Some (VStr i))
  \/ (tget cat_id (snd b) = None /\ tget def_id (snd b) = None /\ i = fst b).
