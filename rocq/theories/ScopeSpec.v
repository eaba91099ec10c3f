(** The attributes that the main block of a dictionary lists for a scope. *)
From Coq Require Import String Ascii List NArith Bool.
From Verif Require Import PyBase StarBlockModel LoopSpec ValidateModel TreeSpec.
Import ListNotations.

(** A list of texts. *)
Definition listing (v : value) (l : list str) : Prop := v = VList (map VStr l) \/ v = VSL (map VStr l).
(** Row [i] is for scope [s] and requirement [k] and lists the names [l]. *)
Definition demand (b : block) (i : nat) (s k : str) (l : list str) : Prop :=
  exists v w, cell b (u "_dictionary_valid.application") i v /\ listing v [s; k] /\ cell b (u "_dictionary_valid.attributes") i w /\ listing w l.
(** The last row for a scope and a requirement. *)
Definition latest (b : block) (s k : str) (l : list str) : Prop :=
  exists i, demand b i s k l /\ forall j l', (i < j)%nat -> ~ demand b j s k l'.
(** A table of scopes holds what the rows with requirement [k] ask for: an entry for
    each scope that has a row, with the names that those of its last row stand for. *)
Definition holds_demands (d : list (str * table)) (b : block) (k : str) (sc : list (str * list str)) : Prop :=
  (forall s, (exists names, dget str_eqb s sc = Some names) <-> exists i l, demand b i s k l)
  /\ forall s names a, dget str_eqb s sc = Some names -> (In a names <-> exists l c, latest b s k l /\ In c l /\ stands_for d c a).
