(** Specification vocabulary for block collections (independent of the operations
    of CollectionModel.v). *)
From Coq Require Import String Ascii List NArith ZArith Bool Permutation Sorted.
From Verif Require Import PyBase StarBlockModel CollectionModel.
Import ListNotations.

(** The block whose key is [x] is recorded as being directly inside the one whose
    key is [p]. *)
Definition inside (c : coll) (p x : str) : Prop :=
  exists i, In (x, PC i (Some p)) (c_child c).
(** ... or at some depth. *)
Inductive below (c : coll) (p : str) : str -> Prop :=
| below_one x : inside c p x -> below c p x
| below_more x y : below c p x -> inside c x y -> below c p y.

Definition ckeys (c : coll) : list str := map fst (c_dict c).
Definition root (c : coll) (x : str) : Prop := exists i, In (x, PC i None) (c_child c).

(** Consistent collections, apart from visibility: one entry per block in every
    table, lower-case keys, existing parents, no block inside itself. *)
Record CWF (c : coll) : Prop := mkCWF {
  cw_keys : NoDup (ckeys c);
  cw_low : forall k, In k (ckeys c) -> lower k = k;
  cw_set : Permutation (c_lower c) (ckeys c);
  cw_table : Permutation (map fst (c_child c)) (ckeys c);
  cw_order : Permutation (c_order c) (ckeys c);
  cw_parents : forall p x, inside c p x -> In p (ckeys c);
  cw_acyclic : forall x, ~ below c x x
}.
(** What keys() shows. *)
Definition visible_ok (c : coll) : Prop :=
  match c_scope c with
  | Dictionary => Permutation (c_vis c) (ckeys c)
  | Instance => NoDup (c_vis c) /\ forall x, In x (c_vis c) <-> root c x
  end.

(** Operations for which consistency is claimed: parents that are named exist, no
    block is put inside itself or inside a block below it, and a block that is
    deleted or renamed is visible, with all the blocks below it when deleted. *)
Definition reachable_op (c : coll) (o : cop) : Prop :=
  match o with
  | KNew n _ f p =>
      (forall q, p = Some q -> In (lower q) (ckeys c)) /\
      (c_std c = StdNone -> In (lower (fix_name f n)) (ckeys c) ->
         (forall x, below c (lower (fix_name f n)) x -> In x (c_vis c)) /\
         In (lower (fix_name f n)) (c_vis c) /\
         forall q, p = Some q -> lower q <> lower (fix_name f n) /\ ~ below c (lower (fix_name f n)) (lower q))
  | KDel k => In (lower k) (ckeys c) -> In (lower k) (c_vis c) /\ forall x, below c (lower k) x -> In x (c_vis c)
  | KRename a _ => In (lower a) (ckeys c) -> In (lower a) (c_vis c)
  | KParent p k => lower p <> lower k /\ ~ below c (lower k) (lower p)
  | _ => True
  end.
Fixpoint reachable_ops (os : list cop) (c : coll) : Prop :=
  match os with
  | [] => True
  | o :: r => reachable_op c o /\ reachable_ops r (fst (run_cop o c))
  end.

(** The parent recorded for a key, and its printed name. *)
Definition entry_of (c : coll) (x : str) : option pc := dget str_eqb x (c_child c).

(** Removing a set of keys everywhere. *)
Definition without (gone : str -> Prop) (l l' : list str) : Prop :=
  exists keep : str -> bool, (forall x, In x l -> (keep x = false <-> gone x)) /\ l' = filter keep l.

(** Adding a block when the collection has a standard. *)
Definition stored (c : coll) (b : block) : block :=
  set_characterset (c_uni c) (match c_std c with StdCif => fst (setmaxnamelength 75 b) | _ => b end).

(** Conditions under which a name cannot be added. *)
Definition refuses (c : coll) (name : str) (b : block) (k : str) (parent : option str) : Prop :=
  (c_std c = StdCif /\ exists x, In x (b_keys b) /\ (75 < length x)%nat) \/
  (75 < length name)%nat \/
  (parent = None /\ root c k) \/
  (parent <> None /\ In k (ckeys c) /\ ~ root c k).

(** How a top-level block is written. *)
Definition section (s : standard) (r : str) (frames : list str) : list wsec :=
  WHead r :: match s with
             | StdDic => WBodyTo r :: map WFrame frames ++ [WBodyFrom r]
             | _ => map WFrame frames ++ [WBody r]
             end.
