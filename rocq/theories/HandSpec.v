(** What a file says: its data blocks and save frames, each with its own items. *)
From Coq Require Import String Ascii List NArith ZArith PeanoNat Bool.
From Verif Require Import PyBase StarBlockModel StarBlockSpec LoopSpec ReadModel ReadSpec ScanModel ParseModel CollectionModel CollectionSpec.
Import ListNotations.

(** Name, name of the data block around it, items. *)
Definition part : Type := str * option str * list item.
Definition part_name (x : part) : str := match x with (n, _, _) => n end.
Definition own_items (l : list content) : list item := flat_map (fun x => match x with CItems i => i | CFrame _ _ => [] end) l.
Definition frames_in (h : str) (l : list content) : list part :=
  flat_map (fun x => match x with CItems _ => [] | CFrame n l => [(n, Some h, own_items l)] end) l.
Definition parts (d : dblock) : list part := (d_name d, None, own_items (d_contents d)) :: frames_in (d_name d) (d_contents d).
(** No frames within frames. *)
Definition one_level (d : dblock) : Prop := forall n l n' l', In (CFrame n l) (d_contents d) -> ~ In (CFrame n' l') l.

(** Names and loops that can be stored.  The limits are those of the code; 0 or less
    means no limit. *)
Definition names_limit (sd : standard) (maxn : Z) (p : option str) : Z :=
  match p, sd with None, StdCif => 75 | None, _ => maxn | Some _, _ => 75 end.
Definition item_fits (it : item) : Prop := match it with Kv _ _ => True | Lp ns vs => ns <> [] /\ whole_rows ns vs /\ ends_full vs end.
Definition part_fits (sd : standard) (maxn : Z) (x : part) : Prop :=
  match x with (n, p, its) => (length n <= 75)%nat /\ Forall item_fits its /\ NoDup (map lower (all_names its))
    /\ ((0 < names_limit sd maxn p)%Z -> forall m, In m (all_names its) -> (Z.of_nat (length m) <= names_limit sd maxn p)%Z) end.

(** The collection has the block under its name, with these items and no others. *)
Definition holds_part (c : coll) (x : part) : Prop :=
  match x with (n, p, its) => entry_of c (lower n) = Some (PC n (option_map lower p))
    /\ exists b, c_get n c = Ret b /\ WF b /\ Forall (holds_item b) its /\ b_keys b = map lower (all_names its)
       /\ b_true b = map (fun n => (lower n, n)) (all_names its) /\ b_order b = layout 1 its /\ b_loops b = loop_layout 1 its end.

(** Loops that have names and do not end with an empty list. *)
Definition loop_named (it : item) : Prop := match it with Kv _ _ => True | Lp ns vs => ns <> [] /\ ends_full vs end.
