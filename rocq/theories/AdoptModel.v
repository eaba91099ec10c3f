(** Model of taking over categories of another DDLm dictionary: get_whole_dict,
    get_one_cat, add_one_defn, get_one_cat_with_children (src/CifFile_module.nw
    1795-1851) and get_categories (1322-1324), with CifDic.__setitem__ and NewBlock
    (1169-1182).  No proofs here. *)
From Coq Require Import String Ascii List NArith PeanoNat Bool.
From Verif Require Import PyBase StarBlockModel ValidateModel TreeModel ImportModel CollectionModel.
Import ListNotations.
Open Scope nat_scope.

(** A dictionary: its blocks under lower-case names, the names of those without parent,
    and block_id_table.  Simplifications: a definition is a value, not an object that
    two dictionaries share; no imports. *)
Record dic := mkDic { d_blocks : list (str * table); d_tops : list str; d_ids : list (str * str) }.
(** __getitem__ (1157-1166) *)
Definition d_get (d : dic) (key : str) : outcome table :=
  let by_name := match dget str_eqb (lower key) (d_blocks d) with Some t => Ret t | None => Raise KeyErr end in
  match dget str_eqb (lower key) (d_ids d) with
  | Some b => match dget str_eqb (lower b) (d_blocks d) with Some t => Ret t | None => by_name end
  | None => by_name
  end.
(** __contains__ (1205-1209) *)
Definition d_has (d : dic) (key : str) : bool := dmem str_eqb (lower key) (d_ids d).
(** BlockCollection.NewBlock without a parent (src/StarFile.nw 526-576), where standard
    is Dic. *)
Definition coll_new (d : dic) (name : str) (t : table) : dic * outcome str :=
  if Nat.ltb 75 (length name) then (d, Raise StarErr) else
  let k := lower (fix_name true name) in
  let put k := (mkDic (d_blocks d ++ [(k, t)]) (d_tops d ++ [k]) (d_ids d), Ret k) in
  if dmem str_eqb k (d_blocks d)
  then if mem str_eqb k (d_tops d) then (d, Raise StarErr)
       else match fresh_key k (map fst (d_blocks d)) with Ret k' => put k' | Raise e => (d, Raise e) end
  else put k.
Definition set_id (i key : str) (d : dic) : dic := mkDic (d_blocks d) (d_tops d) (dset str_eqb i key (d_ids d)).
(** t['_definition.id'] as a key of block_id_table; a list can not be one. *)
Definition defid (t : table) : outcome str :=
  match tget a_defid t with Some (VStr s) => Ret s | Some _ => Raise TypeErr | None => Raise KeyErr end.
(** CifDic.NewBlock (1177-1182) *)
Definition dic_new (d : dic) (name : str) (t : table) : dic * outcome unit :=
  match coll_new d name t with
  | (d1, Raise e) => (d1, Raise e)
  | (d1, Ret k) => match obind (d_get d1 k) (fun t1 => defid t1) with
                   | Ret i => (set_id i k d1, Ret tt)
                   | Raise e => (d1, Raise e)
                   end
  end.
(** CifDic.__setitem__ (1169-1175) *)
Definition dic_set (d : dic) (key : str) (t : table) : dic * outcome unit :=
  match dic_new d key t with
  | (d1, Raise e) => (d1, Raise e)
  | (d1, Ret _) => match defid t with
                   | Ret i => (set_id i key d1, Ret tt)
                   | Raise e => (d1, Raise e)
                   end
  end.

(** self[key] = source_dict[key] *)
Definition take (src : dic) (key : str) (d : dic) : dic * outcome unit :=
  match d_get src key with Ret t => dic_set d key t | Raise e => (d, Raise e) end.
(** add_one_defn (1835-1842) *)
Definition add_one_defn (src : dic) (key on_dupl : str) (d : dic) : dic * outcome unit :=
  if d_has d key
  then if str_eqb on_dupl (u "Ignore") then (d, Ret tt)
       else if str_eqb on_dupl (u "Exit") then (d, Raise CifErr)
       else take src key d
  else take src key d.
(** Running one step after another; the first error ends it. *)
Definition then_do (r : dic * outcome unit) (f : dic -> dic * outcome unit) : dic * outcome unit :=
  match r with (d, Ret _) => f d | (d, Raise e) => (d, Raise e) end.
(** for cat_defn in cat_list, with the lazy filter of 1819-1820. *)
Fixpoint add_members (src : dic) (cat on_dupl : str) (keys : list str) (d : dic) : dic * outcome unit :=
  match keys with
  | [] => (d, Ret tt)
  | a :: r =>
      match obind (d_get src a) cat_of with
      | Raise e => (d, Raise e)
      | Ret c => if str_eqb c (lower cat) then then_do (add_one_defn src a on_dupl d) (add_members src cat on_dupl r)
                 else add_members src cat on_dupl r d
      end
  end.
(** source_dict.get(source_cat,""), 1811-1812; a block without items is false. *)
Definition d_find (d : dic) (key : str) : outcome (option table) :=
  if d_has d key then obind (d_get d key) (fun t => Ret (if is_empty t then None else Some t)) else Ret None.
(** get_one_cat (1810-1833) *)
Definition get_one_cat (src : dic) (cat on_dupl on_miss : str) (d : dic) : dic * outcome unit :=
  match d_find src cat, d_find d cat with
  | Raise e, _ => (d, Raise e)
  | _, Raise e => (d, Raise e)
  | Ret None, _ => if str_eqb on_miss (u "Ignore") then (d, Ret tt) else (d, Raise CifErr)
  | Ret (Some t), Ret this =>
      then_do (match this with
               | Some _ => if str_eqb on_dupl (u "Ignore") then (d, Ret tt)
                           else if str_eqb on_dupl (u "Exit") then (d, Raise CifErr)
                           else dic_set d cat t
               | None => dic_set d cat t
               end) (add_members src cat on_dupl (map fst (d_ids src)))
  end.
(** get_categories (1322-1324) *)
Definition categories (d : dic) : outcome (list str) :=
  filterM (fun k => obind (d_get d k) (fun t => Ret (is_category t))) (map fst (d_ids d)).
Fixpoint get_cats (src : dic) (cats : list str) (on_dupl on_miss : str) (d : dic) : dic * outcome unit :=
  match cats with [] => (d, Ret tt) | c :: r => then_do (get_one_cat src c on_dupl on_miss d) (get_cats src r on_dupl on_miss) end.
(** get_whole_dict (1795-1797) *)
Definition get_whole_dict (src : dic) (on_dupl on_miss : str) (d : dic) : dic * outcome unit :=
  match categories src with Ret l => get_cats src l on_dupl on_miss d | Raise e => (d, Raise e) end.
(** get_one_cat_with_children (1848-1851): every category is asked for an attribute
    that DDLm does not have.  Simplification: both are texts. *)
Definition a_parent : str := u "_category.parent_id".
Definition with_children (src : dic) (cat on_dupl on_miss : str) (d : dic) : dic * outcome unit :=
  then_do (get_one_cat src cat on_dupl on_miss d) (fun d =>
  match obind (categories src) (fun l =>
        filterM (fun a => obind (d_get src a) (fun t => obind (attr_of t a_parent) (fun p => obind (d_get src cat) (fun ct => obind (defid ct) (fun i => Ret (str_eqb p i)))))) l) with
  | Ret l => get_cats src l on_dupl on_miss d
  | Raise e => (d, Raise e)
  end).
