(** Model of the parts of a block collection that look over all its blocks:
    checklengths (src/StarFile.nw 272-278), items and first_block (391-397),
    checknamelengths (789-797), get_all (812-823), and the part of Validate that
    collects the values of parent items with it (src/CifFile_module.nw
    3872-3884).  No proofs here. *)
From Coq Require Import String Ascii List NArith ZArith Bool.
From Verif Require Import PyBase StarBlockModel LoopModel ScanModel CollectionModel.
Import ListNotations.

(** checklengths: the printed names of all blocks, visible or not.  [maxlength] is
    an integer. *)
Definition checklengths (maxlength : Z) (c : coll) : outcome unit :=
  if existsb (fun kp => Z.ltb maxlength (Z.of_nat (length (pc_id (snd kp))))) (c_child c) then Raise StarErr else Ret tt.

(** checknamelengths *)
Definition checknamelengths (b : block) (maxlength : Z) : outcome unit :=
  if Z.ltb maxlength 0 then Ret tt
  else if existsb (fun k => Z.ltb maxlength (Z.of_nat (length k))) (b_keys b) then Raise StarErr else Ret tt.

(** items (391-392) *)
Fixpoint items_of (keys : list str) (c : coll) : outcome (list (str * block)) :=
  match keys with
  | [] => Ret []
  | k :: r => obind (c_get k c) (fun b => obind (items_of r c) (fun l => Ret ((k, b) :: l)))
  end.
Definition c_items (c : coll) : outcome (list (str * block)) := items_of (c_keys c) c.

(** first_block (394-397): None in an empty collection. *)
Definition first_block (c : coll) : outcome (option block) :=
  match c_keys c with
  | [] => Ret None
  | k :: _ => obind (c_get k c) (fun b => Ret (Some b))
  end.

(** StarBlock.get (1630-1635) with None as default *)
Definition b_get (name : str) (b : block) : outcome value :=
  if has_key name b then get_item name b else Ret VNone.
(** if rvv not in ret_vals: ret_vals.append(rvv) *)
Definition add_new (acc : list value) (v : value) : list value :=
  if existsb (fun x => py_eq x v) acc then acc else acc ++ [v].
(** 816-822 for one of the values; those equal to None have been left out (814). *)
Definition add_value (acc : list value) (v : value) : list value :=
  match v with
  | VNone => acc
  | VList l | VSL l => fold_left add_new l acc
  | _ => add_new acc v
  end.
Fixpoint raw_values (name : str) (keys : list str) (c : coll) : outcome (list value) :=
  match keys with
  | [] => Ret []
  | k :: r =>
      obind (c_get k c) (fun b =>
      obind (b_get name b) (fun v =>
      obind (raw_values name r c) (fun l => Ret (v :: l))))
  end.
Definition get_all (name : str) (c : coll) : outcome (list value) :=
  obind (raw_values name (c_keys c) c) (fun l => Ret (fold_left add_value l [])).

(** One turn of the loop over the parents (3879-3884), for names that are texts.
    A block of that name can not be gone through as a list (3880-3882); a list can
    not be stored as a block of a file with a standard (3884, StarFile.nw 535);
    without values there is nothing to print the length of (3885). *)
Definition one_parent (parent : str) (c : coll) : outcome unit :=
  if c_has parent c then Raise AttributeErr
  else obind (get_all parent c) (fun vals =>
       match vals with
       | _ :: _ => Raise AttributeErr
       | [] => obind (c_get parent c) (fun _ => Raise AttributeErr)
       end).
(** 3872-3885: what comes before the checks of a dictionary against one in DDL2 that
    links the items [parents]. *)
Fixpoint all_parents (parents : list str) (c : coll) : outcome unit :=
  match parents with
  | [] => Ret tt
  | p :: r => obind (one_parent p c) (fun _ => all_parents r c)
  end.
Definition before_checks (parents : list str) (c : coll) : outcome unit :=
  match c_keys (set_scope Instance c) with
  | [] => Raise IndexErr
  | _ :: _ => all_parents parents (set_scope Dictionary (set_scope Instance c))
  end.
