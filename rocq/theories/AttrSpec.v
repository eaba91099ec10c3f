(** What an attribute of a packet should be. *)
From Coq Require Import String Ascii List NArith Bool.
From Verif Require Import PyBase StarBlockModel LoopModel LoopSpec SemanticModel.
Import ListNotations.

(** The packet has the value [v] for [n], whatever the case of [n]. *)
Definition att (p : semantic) (n : str) (v : value) : Prop := dget str_eqb (lower n) (s_atts p) = Some v.
(** Row [i] has the values of the packet for its keys. *)
Definition row_of_packet (repr : value -> str) (p : semantic) (b : block) (i : nat) : Prop :=
  forall k v, In k (s_key p) -> att p k v -> exists w, cell b (lower k) i w /\ map lower_char (printed repr w) = map lower_char (printed repr v).
