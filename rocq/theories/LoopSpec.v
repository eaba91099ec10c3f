(** Specification vocabulary for row access to loops. *)
From Coq Require Import String Ascii List NArith ZArith Bool.
From Verif Require Import PyBase StarBlockModel StarBlockSpec LoopModel.
Import ListNotations.

(** The value in row [i] of column [n]. *)
Definition cell (b : block) (n : str) (i : nat) (v : value) : Prop :=
  exists l, get_item n b = Ret (VList l) /\ nth_error l i = Some v.

(** [names] are the columns of one loop of [b], all with [rows] rows. *)
Definition is_table (b : block) (names : list str) (rows : nat) : Prop :=
  names <> [] /\
  forall n, In n names -> get_loop_names n b = Ret names /\
                          exists l, get_item n b = Ret (VList l) /\ length l = rows.

(** [p] is row [i] of the loop: one value per column, in column order. *)
Definition is_row (b : block) (names : list str) (i : nat) (p : packet) : Prop :=
  map fst p = names /\ forall n v, In (n, v) p -> cell b n i v.

(** Equality of data values: same text, same number, lists with equal members,
    tables with equal members under the same keys. *)
Inductive same_value : value -> value -> Prop :=
| sv_str s : same_value (VStr s) (VStr s)
| sv_num s : same_value (VNum s) (VNum s)
| sv_none : same_value VNone VNone
| sv_list x y l m : (x = VList l \/ x = VSL l) -> (y = VList m \/ y = VSL m) ->
    Forall2 same_value l m -> same_value x y
| sv_dict d e : length d = length e ->
    (forall k v, In (k, v) d -> exists w, dget str_eqb k e = Some w /\ same_value v w) ->
    same_value (VDict d) (VDict e).

(** Row [i] satisfies the condition [P] in column [key]. *)
Definition row_matches (b : block) (key : str) (P : value -> Prop) (i : nat) : Prop :=
  exists v, cell b key i v /\ P v.

(** Exactly one number satisfies [Q]. *)
Definition only (Q : nat -> Prop) (i : nat) : Prop := Q i /\ forall j, Q j -> j = i.

(** Case-insensitive equality of texts. *)
Definition same_text_nocase (a v : value) : Prop :=
  exists s t, a = VStr s /\ v = VStr t /\ map lower_char s = map lower_char t.

(** The condition of one key of a compound key ([repr]: how non-texts print). *)
Definition printed (repr : value -> str) (v : value) : str :=
  match v with VStr s => s | VNum s => s | _ => repr v end.
Definition key_holds (repr : value -> str) (kv : value * bool) (v : value) : Prop :=
  if snd kv then map lower_char (printed repr v) = map lower_char (printed repr (fst kv))
  else same_value v (fst kv).

(** Both stored versions of every looped value have one entry per row, and the
    unused one is empty in every row. *)
Definition entry_ok (e : value * value) : Prop :=
  (exists s v, e = (VList s, VList v) /\ length s = length v /\
     (Forall (fun x => not_none x = true) s \/ Forall (fun x => not_none x = false) s)) \/
  (is_plain_list (fst e) = false /\ is_plain_list (snd e) = false).
Definition consistent (b : block) : Prop :=
  forall k e, dget str_eqb k (b_data b) = Some e -> entry_ok e.

(** [l'] is [l] without its entry number [i]. *)
Definition entry_deleted {A} (i : nat) (l l' : list A) : Prop :=
  exists a x c, l = a ++ x :: c /\ length a = i /\ l' = a ++ c.

(** Blocks that agree on everything but the stored values. *)
Definition same_layout (a b : block) : Prop :=
  b_loops a = b_loops b /\ b_order a = b_order b /\ b_keys a = b_keys b
  /\ b_over a = b_over b /\ b_max a = b_max b /\ b_uni a = b_uni b.
