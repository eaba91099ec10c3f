(** Specification vocabulary for the contents of data blocks. *)
From Coq Require Import String Ascii List NArith ZArith Bool.
From Verif Require Import PyBase StarBlockModel StarBlockSpec LoopSpec ReadModel.
Import ListNotations.

(** The datanames of an entry. *)
Definition item_names (it : item) : list str :=
  match it with Kv n _ => [n] | Lp ns _ => ns end.
Definition all_names (its : list item) : list str := flat_map item_names its.

(** Values as the grammar delivers them: texts, lists and tables of such. *)
Inductive parsed : value -> Prop :=
| p_str s : parsed (VStr s)
| p_list l : Forall parsed l -> parsed (VSL l)
| p_dict d : Forall (fun kv => parsed (snd kv)) d -> parsed (VDict d).

(** Datanames as the grammar delivers them. *)
Definition is_dataname (n : str) : Prop := exists r, n = u "_" ++ r.

(** Entries as the grammar delivers them (at least one value after [loop_]); here
    also at least one name. *)
Definition item_ok (it : item) : Prop :=
  match it with
  | Kv n v => is_dataname n /\ parsed v
  | Lp ns vs => ns <> [] /\ vs <> [] /\ Forall is_dataname ns /\ Forall parsed vs
  end.

(** The last value of a loop is not an empty list. *)
Definition ends_full (vs : list value) : Prop := forall vs0, vs <> vs0 ++ [VSL []].
Definition loop_full (it : item) : Prop := match it with Kv _ _ => True | Lp _ vs => ends_full vs end.

(** [k] values per row. *)
Definition whole_rows (ns : list str) (vs : list value) : Prop := Nat.divide (length ns) (length vs).
Definition item_whole (it : item) : Prop := match it with Kv _ _ => True | Lp ns vs => whole_rows ns vs end.

(** The loop of [b] whose columns are [ns] holds [vs] row by row. *)
Definition holds_rows (b : block) (ns : list str) (vs : list value) : Prop :=
  is_table b (map lower ns) (length vs / length ns) /\
  forall j n, nth_error ns j = Some n ->
    forall i v, cell b n i v <-> nth_error vs (j + i * length ns) = Some v.

Definition holds_item (b : block) (it : item) : Prop :=
  match it with
  | Kv n v => get_item n b = Ret v /\ get_loop_names n b = Raise KeyErr
  | Lp ns vs => holds_rows b ns vs
  end.

(** The output order: items in file order, loops numbered from [k] on. *)
Fixpoint layout (k : Z) (its : list item) : list oitem :=
  match its with
  | [] => []
  | Kv n _ :: r => ON (lower n) :: layout k r
  | Lp _ _ :: r => OL k :: layout (k + 1) r
  end.
Fixpoint loop_layout (k : Z) (its : list item) : list (Z * list str) :=
  match its with
  | [] => []
  | Kv _ _ :: r => loop_layout k r
  | Lp ns _ :: r => (k, map lower ns) :: loop_layout (k + 1) r
  end.
