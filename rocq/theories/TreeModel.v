(** Model of the category tree of a DDLm dictionary and of its table of
    definitions: create_def_block_table and __getitem__ (src/CifFile_module.nw
    1139-1169), get_root_category .. get_ddlm_parent (1265-1315), and the category
    parent table (1566-1579).

    A dictionary is its table of definitions: lower-case definition ids (the keys
    of block_id_table) with their attributes.  Imports are in ImportModel.v. *)
From Coq Require Import String Ascii List NArith Bool.
From Verif Require Import PyBase StarBlockModel ValidateModel.
Import ListNotations.

Definition defs := list (str * table).
Definition a_category : str := u "_name.category_id".
Definition a_scope : str := u "_definition.scope".
Definition a_class : str := u "_definition.class".

(** self[a].get('_name.category_id','').lower() *)
Definition cat_of (t : table) : outcome str :=
  match tget a_category t with None => Ret [] | Some (VStr s) => Ret (lower s) | Some _ => Raise AttributeErr end.
(** self[a].get('_definition.scope','Item') == 'Category' *)
Definition is_category (t : table) : bool := veq_text (tget a_scope t) (u "Category").
Definition is_loop (t : table) : bool := veq_text (tget a_class t) (u "Loop").
Definition is_head (t : table) : bool := veq_text (tget a_class t) (u "Head").

(** get_root_category (1266-1271).  The message of the error has no place for its
    argument, so building it raises TypeError. *)
Definition root_category (d : defs) : outcome str :=
  match filter (fun kt => is_head (snd kt)) d with
  | [(k, _)] => Ret k
  | _ => Raise TypeErr
  end.
(** ddlm_immediate_children (1273-1279) *)
Definition immediate_children (d : defs) (cat : str) : outcome (list str) :=
  obind (filterM (fun kt => obind (cat_of (snd kt)) (fun c => Ret (str_eqb c (lower cat)))) d) (fun l => Ret (map fst l)).
(** The loop of ddlm_all_children (1285-1287). *)
Fixpoint add_cats (rec : str -> outcome (list str)) (cats acc : list str) : outcome (list str) :=
  match cats with
  | [] => Ret acc
  | c :: r => obind (rec c) (fun l => add_cats rec r (remove1 str_eqb c acc ++ l))
  end.
(** ddlm_all_children (1281-1288); [n] bounds the depth. *)
Fixpoint all_children (n : nat) (d : defs) (cat : str) : outcome (list str) :=
  match n with
  | O => Raise OutOfFuel
  | Datatypes.S n' =>
      obind (immediate_children d cat) (fun kids =>
      let cats := filter (fun a => match dget str_eqb a d with Some t => is_category t | None => false end) kids in
      obind (add_cats (all_children n' d) cats kids) (fun l => Ret (l ++ [cat])))
  end.
(** is_semantic_child (1290-1293) *)
Definition is_semantic_child (n : nat) (d : defs) (parent child : str) : outcome bool :=
  obind (all_children n d parent) (fun l => Ret (smem child l)).
(** ddlm_danglers (1295-1302), as a list in the order of the keys. *)
Definition danglers (n : nat) (d : defs) : outcome (list str) :=
  obind (root_category d) (fun top =>
  obind (all_children n d top) (fun l => Ret (filter (fun k => negb (smem k l)) (map fst d)))).
(** get_ddlm_parent (1304-1309) *)
Definition ddlm_parent (d : defs) (item : str) : outcome str :=
  obind (match dget str_eqb (lower item) d with Some t => Ret t | None => Raise KeyErr end) (fun t =>
  match tget a_category t with
  | None | Some (VStr []) => Raise CifErr
  | Some (VStr s) => Ret s
  | Some _ => Raise TypeErr                (* simplification: the value itself is returned *)
  end).

(** expand_category_opt (1312-1320); [n] bounds the depth.  A name that is not
    defined stands for itself. *)
Fixpoint expand (n : nat) (d : defs) (names : list str) : outcome (list str) :=
  match n with
  | O => Raise OutOfFuel
  | Datatypes.S n' =>
      (fix each (l : list str) : outcome (list str) :=
         match l with
         | [] => Ret []
         | a :: r =>
             obind (if match dget str_eqb (lower a) d with Some t => is_category t | None => false end
                    then obind (immediate_children d a) (expand n' d) else Ret [a])
               (fun x => obind (each r) (fun y => Ret (x ++ y)))
         end) names
  end.
(** names_in_cat (1333-1338) with names_only False and True. *)
Definition names_in_cat (d : defs) (cat : str) : outcome (list str) :=
  obind (immediate_children d cat) (fun kids =>
  Ret (filter (fun a => match dget str_eqb a d with
                        | Some t => match tget a_scope t with None => true | o => veq_text o (u "Item") end
                        | None => false end) kids)).
Fixpoint object_ids (d : defs) (l : list str) : outcome (list value) :=
  match l with
  | [] => Ret []
  | a :: r => obind (match dget str_eqb a d with
                     | Some t => match tget (u "_name.object_id") t with Some v => Ret v | None => Raise KeyErr end
                     | None => Raise KeyErr end)
                (fun v => obind (object_ids d r) (fun vs => Ret (v :: vs)))
  end.
Definition object_names_in_cat (d : defs) (cat : str) : outcome (list value) :=
  obind (immediate_children d cat) (object_ids d).

(** ** The category parent table (1566-1579) *)
Fixpoint climb (n : nat) (d : defs) (cat : str) : outcome str :=
  match dget str_eqb (lower cat) d with
  | None => Raise KeyErr
  | Some t =>
      match tget a_category t with
      | None => Raise KeyErr
      | Some (VStr s) =>
          match dget str_eqb (lower s) d with
          | Some t' => if is_loop t' then match n with O => Raise OutOfFuel | Datatypes.S n' => climb n' d (lower s) end
                       else Ret cat
          | None => Ret cat
          end
      | Some _ => Raise AttributeErr
      end
  end.
Definition looped_cats (d : defs) : list str := map fst (filter (fun kt => is_category (snd kt) && is_loop (snd kt)) d).
Fixpoint climb_all (n : nat) (d : defs) (l : list str) : outcome (list (str * str)) :=
  match l with
  | [] => Ret []
  | c :: r => obind (climb n d c) (fun p => obind (climb_all n d r) (fun ps => Ret ((c, p) :: ps)))
  end.
Definition parent_lookup (n : nat) (d : defs) : outcome (list (str * str)) := climb_all n d (looped_cats d).

(** ** The table of definitions *)
(** a[0].get(self.cat_id_spec, a[0].get(self.def_id_spec, a[1])) *)
Definition block_def_id (cat_id def_id : str) (b : str * table) : outcome str :=
  match first_of (tget cat_id (snd b)) (tget def_id (snd b)) with
  | None => Ret (fst b)
  | Some (VStr s) => Ret s
  | Some _ => Raise TypeErr              (* unhashable in set(), or no lower() *)
  end.
Fixpoint proto_table (cat_id def_id : str) (blocks : list (str * table)) : outcome (list (str * str)) :=
  match blocks with
  | [] => Ret []
  | b :: r => obind (block_def_id cat_id def_id b) (fun i => obind (proto_table cat_id def_id r) (fun l => Ret ((i, fst b) :: l)))
  end.
Fixpoint has_dup (l : list str) : bool := match l with [] => false | x :: r => smem x r || has_dup r end.
(** dict([...]): later entries replace the value of earlier ones. *)
Definition dict_of (l : list (str * str)) : list (str * str) := fold_left (fun acc kv => dset str_eqb (fst kv) (snd kv) acc) l [].
Definition def_block_table (cat_id def_id : str) (tops : list str) (blocks : list (str * table)) : outcome (list (str * str)) :=
  obind (proto_table cat_id def_id blocks) (fun l =>
  if has_dup (map fst l) then Raise CifErr
  else Ret (dict_of (map (fun kv => (lower (fst kv), lower (snd kv))) (filter (fun kv => negb (smem (lower (snd kv)) tops)) l)))).
(** CifDic.__getitem__ without imports: the block of a definition id, otherwise a
    block of that name. *)
Definition get_definition (tbl : list (str * str)) (blocks : list (str * table)) (key : str) : outcome table :=
  let name := match dget str_eqb (lower key) tbl with Some b => b | None => lower key end in
  match dget str_eqb name blocks with Some t => Ret t | None => Raise KeyErr end.
(** CifDic.__contains__ (1205-1209) *)
Definition def_contains (tbl : list (str * str)) (key : str) : bool := dmem str_eqb (lower key) tbl.
(** The update of the table in CifDic.__setitem__ (1171-1177): the id is not put in
    lower case. *)
Definition def_set (tbl : list (str * str)) (id key : str) : list (str * str) := dset str_eqb id key tbl.
