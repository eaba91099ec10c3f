(** Specification vocabulary for merging blocks. *)
From Coq Require Import String Ascii List NArith ZArith Bool Permutation.
From Verif Require Import PyBase StarBlockModel StarBlockSpec LoopSpec.
Import ListNotations.

(** All loops have columns of one length. *)
Definition proper_loops (b : block) : Prop :=
  forall k cols, In (k, cols) (b_loops b) -> exists rows, is_table b cols rows.
(** [n] is a column of a loop of [b]. *)
Definition looped_in (b : block) (n : str) : Prop := exists k cols, In (k, cols) (b_loops b) /\ In n cols.
(** Every item of [nb] could be assigned in [a]. *)
Definition accepts (a nb : block) : Prop :=
  forall n, In n (b_keys nb) -> check_data_name (b_max a) (b_uni a) n = Ret tt /\
    exists v, get_item n nb = Ret v /\ acceptable_value (b_uni a) v.
(** [b'] is [a] with the items of [nb] for which [take] holds. *)
Record block_merged (take : str -> Prop) (a nb b' : block) : Prop := mkMerged {
  (* values: of the incoming block, and all others as they were *)
  bm_taken : forall n, In (lower n) (b_keys nb) -> take (lower n) -> get_item n b' = get_item n nb;
  bm_kept : forall n, ~ (In (lower n) (b_keys nb) /\ take (lower n)) -> get_item n b' = get_item n a;
  bm_keys : forall n, In n (b_keys b') <-> In n (b_keys a) \/ (In n (b_keys nb) /\ take n);
  (* loops of the incoming block are loops; others lose the columns that moved *)
  bm_loops : forall k cols n, In (k, cols) (b_loops nb) -> In n cols -> get_loop_names n b' = Ret cols;
  bm_others : forall n, ~ looped_in nb (lower n) ->
    match get_loop_names n a with
    | Ret cols => exists cols', get_loop_names n b' = Ret cols' /\
                    exists keep, (forall m, keep m = true <-> ~ looped_in nb m) /\ cols' = filter keep cols
    | Raise e => get_loop_names n b' = Raise e
    end;
  (* spelling *)
  bm_case : forall n, dget str_eqb n (b_true b') =
    match dget str_eqb n (b_true nb) with Some t => Some t | None => dget str_eqb n (b_true a) end
}.
