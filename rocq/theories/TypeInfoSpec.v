(** What add_type_info should do to the expressions of a dictionary. *)
From Coq Require Import String Ascii List NArith ZArith Bool.
From Verif Require Import PyBase.
Import ListNotations.
Open Scope nat_scope.

(** The mark stands in the first line of the text, between p and q, with an opening
    bracket and something more before it and a closing bracket after it. *)
Record site (mark p q s : str) : Prop := mkSite {
  si_text : exists rest, s = p ++ mark ++ q ++ rest /\ (rest = [] \/ exists r, rest = 10%N :: r);
  si_before : ~ In 10%N p;
  si_after : ~ In 10%N q;
  si_open : exists a b, p = a ++ 91%N :: b /\ b <> [];
  si_close : In 93%N q }.
(** The last such mark is replaced, and what follows the first line is gone; or there
    is none and nothing changes. *)
Definition mended (mark new s s' : str) : Prop :=
  (exists p q, site mark p q s /\ (forall p' q', site mark p' q' s -> length p' <= length p) /\ s' = p ++ new ++ q)
  \/ ((forall p q, ~ site mark p q s) /\ s' = s).

(** Sets of characters as dictionaries write them. *)
Inductive sitem :=
| SChr (c : N)            (* c *)
| SEsc (c : N)            (* \c *)
| SRange (lo hi : N).     (* lo-hi *)
Definition sitem_text (i : sitem) : str :=
  match i with SChr c => [c] | SEsc c => [92%N; c] | SRange lo hi => [lo; 45%N; hi] end.
Definition plain (c : N) : Prop := ~ In c [92; 93; 45; 10]%N.
(** \n, \t, \r or an escaped sign other than a backslash *)
Definition sign (c : N) : Prop := ((32 < c < 48 \/ 57 < c < 65 \/ 90 < c < 97 \/ 122 < c < 127) /\ c <> 92)%N.
Definition esc_means (c x : N) : Prop :=
  (c = 110 /\ x = 10 \/ c = 116 /\ x = 9 \/ c = 114 /\ x = 13 \/ sign c /\ x = c)%N.
Definition sitem_ok (i : sitem) : Prop :=
  match i with
  | SChr c => plain c
  | SEsc c => exists x, esc_means c x
  | SRange lo hi => plain lo /\ plain hi /\ (lo <= hi)%N
  end.
Definition sitem_has (i : sitem) (x : N) : Prop :=
  match i with
  | SChr c => x = c
  | SEsc c => esc_means c x
  | SRange lo hi => (lo <= x <= hi)%N
  end.
(** [..]: possibly a bracket first, then the items, possibly a hyphen in the end. *)
Definition set_text (bracket : bool) (l : list sitem) (hyphen : bool) : str :=
  u "[" ++ (if bracket then u "]" else []) ++ flat_map sitem_text l ++ (if hyphen then u "-" else []) ++ u "]".
Definition set_has (bracket : bool) (l : list sitem) (hyphen : bool) (x : N) : Prop :=
  (bracket = true /\ x = 93%N) \/ (exists i, In i l /\ sitem_has i x) \/ (hyphen = true /\ x = 45%N).
Definition set_ok (bracket : bool) (l : list sitem) (hyphen : bool) : Prop :=
  Forall sitem_ok l /\ (bracket = true \/ exists i l', l = i :: l' /\ forall c, i = SChr c \/ (exists hi, i = SRange c hi) -> c <> 94%N).
(** The escaped character stands in the set, and not directly after the bracket. *)
Definition marked (bracket : bool) (l : list sitem) (c : N) : Prop :=
  if bracket then In (SEsc c) l else In (SEsc c) (tl l).
