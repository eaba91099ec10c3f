(** Model of what CifDic.__init__ does with DDL1 and DDL2 dictionaries
    (src/CifFile_module.nw 530-575): dic_determine (598-655), DDL1_normalise (698-773),
    getmaxmin (3423-3437), create_def_block_table (1138-1155), ddl1_cat_load (1000-1030)
    and DDL2_normalise (833-878), with the methods of CifDic that they call (1157-1213).

    Simplifications: a definition is its table of attributes and its overwrite flag
    (as in EditModel.v; which attributes are looped together is left out, and so are
    the checks of names and values in StarBlockModel.v); there are no blocks within
    blocks and all blocks are visible; a number is kept as the text it was made from;
    the block on_this_dictionary, which is kept as an object by the code, is looked up
    by its name when the list of types is stored in it. *)
From Coq Require Import String Ascii List NArith PeanoNat Bool.
From Verif Require Import PyBase RegexModel NumberModel StarBlockModel LoopModel CollectionModel ValidateModel TreeModel EditModel.
Import ListNotations.
Open Scope nat_scope.

(** self.dictionary, in the order of visible_keys *)
Definition defs := list (str * entry).

Definition n_name : str := u "_name".
Definition n_list : str := u "_list".
Definition n_conditions : str := u "_type_conditions".
Definition n_range : str := u "_enumeration_range".
Definition n_construct : str := u "_type_construct".
Definition n_type : str := u "_type".
Definition n_category : str := u "_category".
Definition n_cat_id : str := u "_category.id".
Definition n_overview : str := u "category_overview".
Definition n_mandatory : str := u "_list_mandatory".
Definition n_unique : str := u "_list_uniqueness".
Definition n_this : str := u "on_this_dictionary".

(** value[att] = v for a definition that may be changed, and value[att] *)
Definition put (att : str) (v : value) (t : table) : table := dset str_eqb (lower att) v t.
Definition att_of (att : str) (t : table) : outcome value :=
  match tget att t with Some v => Ret v | None => Raise KeyErr end.

(** ** Which language a dictionary is written in (598-655) *)
Inductive language := DDL1 | DDL2 | DDLm.
(** name+version: two texts or two lists can be added. *)
Definition title (t : table) (name version : str) : outcome value :=
  obind (att_of name t) (fun a => obind (att_of version t) (fun b =>
  match a, b with
  | VStr x, VStr y => Ret (VStr (x ++ y))
  | VList x, VList y => Ret (VList (x ++ y))
  | _, _ => Raise TypeErr
  end)).
(** [roots]: the keys that have no parent, from get_roots (StarFile.nw 449-451) *)
Definition dic_determine (roots : list str) (d : defs) : outcome (value * language) :=
  match dget str_eqb n_this d with
  | Some (t, _) => obind (title t (u "_dictionary_name") (u "_dictionary_version")) (fun n => Ret (n, DDL1))
  | None =>
      match roots with
      | [r] =>
          match dget str_eqb (lower r) d with
          | Some (t, _) =>
              obind (title t (u "_dictionary.title") (u "_dictionary.version")) (fun n =>
              Ret (n, if tmem (u "_dictionary.class") t then DDLm else DDL2))
          | None => Raise KeyErr
          end
      | _ => Raise CifErr
      end
  end.

(** ** DDL1_normalise *)
(** self[name] = value with standard None: a block of that name is deleted first
    (StarFile.nw 526-576). *)
Definition d_put (name : value) (e : entry) (d : defs) : outcome defs :=
  match name with
  | VStr s =>
      if 75 <? length s then Raise StarErr
      else let k := lower (fix_name true s) in Ret (ddel str_eqb k d ++ [(k, e)])
  | _ => Raise TypeErr
  end.
(** del self[key] (StarFile.nw 322-336) *)
Definition d_del (key : str) (d : defs) : outcome defs :=
  if dmem str_eqb (lower key) d then Ret (ddel str_eqb (lower key) d) else Raise KeyErr.

(** 711-714: one definition for each name; copies may be changed. *)
Fixpoint put_names (names : list value) (t : table) (d : defs) : outcome defs :=
  match names with
  | [] => Ret d
  | n :: r => obind (d_put n (put n_name n t, true) d) (put_names r t)
  end.
Definition delete_old (key : str) (newnames : list value) (d : defs) : outcome defs :=
  if vmem (VStr key) newnames then Ret d else d_del key d.
(** 706-721 *)
Definition split_one (key : str) (e : entry) (d : defs) : outcome defs :=
  match tget n_name (fst e) with
  | None => delete_old key [VStr key] d
  | Some (VList l) | Some (VSL l) => obind (put_names l (fst e) d) (delete_old key l)
  | Some v => obind (d_put v e d) (delete_old key [v])
  end.
Fixpoint split_all (items : list (str * entry)) (d : defs) : outcome defs :=
  match items with
  | [] => Ret d
  | (k, e) :: r => obind (split_one k e d) (split_all r)
  end.

(** getmaxmin (3423-3437).  The number inside the brackets, which is repeated; the
    group holds the last repetition. *)
Definition range_num : re :=
  RSeq (ropt (is 45)) (RSeq (RAlt (RSeq (RStar digit) (RSeq (is 46) digits)) (RSeq digits (ropt (is 46)))) (ropt exp_re)).
Fixpoint repeated (n : nat) (s : str) : list (option str * str) :=
  match n with
  | O => [(None, s)]
  | Datatypes.S n' =>
      flat_map (fun cr => map (fun lr => (Some (match fst lr with Some l => l | None => fst cr end), snd lr))
                              (repeated n' (snd cr))) (rmatch range_num s)
      ++ [(None, s)]
  end.
Definition rep (s : str) : list (option str * str) := repeated (length s) s.
(** re.match: the groups 1 and 7 *)
Definition range_match (s : str) : option (option str * option str) :=
  hd_error (flat_map (fun a => match snd a with
                               | c :: r => if (c =? 58)%N then map (fun b => (fst a, fst b)) (rep r) else []
                               | [] => []
                               end) (rep s)).
(** a point, or float(text) *)
Definition end_value (o : option str) : outcome value :=
  match o with
  | None => Ret dot
  | Some s => obind (py_float s) (fun _ => Ret (VNum s))
  end.
(** maximum, minimum; a text that does not match leaves both names without a value. *)
Definition getmaxmin (v : value) : outcome (value * value) :=
  match v with
  | VStr s =>
      match range_match s with
      | None => Raise NameErr
      | Some (lo, up) => obind (end_value lo) (fun mn => obind (end_value up) (fun mx => Ret (mx, mn)))
      end
  | _ => Raise TypeErr
  end.
(** 733-740 *)
Definition add_range (t : table) : outcome table :=
  match tget n_range t with
  | None => Ret t
  | Some v =>
      obind (getmaxmin v) (fun mm =>
      let (mx, mn) := mm in
      let (maxs, mins) := if py_eq mn dot then ([mx; mx], [mx; mn])
                          else if py_eq mx dot then ([mx; mn], [mn; mn])
                          else ([mx; mx; mn], [mx; mn; mn]) in
      Ret (put range_min (VList mins) (put range_max (VList maxs) t)))
  end.

(** What the second loop collects: the three columns of the types and cat_list. *)
Record found := Found { f_codes : list value; f_constructs : list value; f_prims : list value; f_cats : list value }.
Definition plus_text (v : value) (s : str) : outcome value :=
  match v with VStr x => Ret (VStr (x ++ s)) | _ => Raise TypeErr end.
(** 742-746 *)
Definition add_type (t : table) (f : found) : outcome (table * found) :=
  match tget n_construct t with
  | None => Ret (t, f)
  | Some c =>
      obind (att_of n_name t) (fun n => obind (plus_text n (u "_type")) (fun code =>
      obind (plus_text c (u "$")) (fun con => obind (att_of n_type t) (fun p =>
      Ret (put n_type code t, Found (f_codes f ++ [code]) (f_constructs f ++ [con]) (f_prims f ++ [p]) (f_cats f))))))
  end.
(** name[1:name.rindex("_")] *)
Definition last_under (s : str) : option nat :=
  match index_of N.eqb 95%N (rev s) with Some i => Some (length s - 1 - i) | None => None end.
Definition cat_id_of (v : value) : outcome str :=
  match v with
  | VStr s => match last_under s with Some n => Ret (tl (firstn n s)) | None => Raise ValueErr end
  | _ => Raise AttributeErr
  end.
(** 750-754 *)
Definition add_cat (t : table) (f : found) : outcome (table * found) :=
  if veq_text (tget n_category t) n_overview then
    obind (att_of n_name t) (fun n => obind (cat_id_of n) (fun id =>
    Ret (put n_cat_id (VStr id) t,
         if vmem (VStr id) (f_cats f) then f
         else Found (f_codes f) (f_constructs f) (f_prims f) (f_cats f ++ [VStr id]))))
  else Ret (t, f).
(** 724-755 for one definition *)
Definition dflt (att : str) (v : value) (t : table) : table := if tmem att t then t else put att v t.
Definition normal_one (t : table) (f : found) : outcome (table * found) :=
  obind (add_range (dflt n_conditions (VStr (u "none")) (dflt n_list (VStr (u "no")) t))) (fun t1 =>
  obind (add_type t1 f) (fun tf => add_cat (fst tf) (snd tf))).
Fixpoint normal_all (d : defs) (f : found) : outcome (defs * found) :=
  match d with
  | [] => Ret ([], f)
  | (k, (t, ov)) :: r =>
      obind (normal_one t f) (fun tf => obind (normal_all r (snd tf)) (fun rf =>
      Ret ((k, (fst tf, ov)) :: fst rf, snd rf)))
  end.

(** 758-770: a definition for a category that has none; [keys] are those of
    self.items() before the loop. *)
Definition fake_name (cat : str) : str := u "_" ++ cat ++ u "_[]".
Definition fake_def (cat : str) : entry :=
  ([(n_category, VStr n_overview); (n_cat_id, VStr cat); (n_type, VStr (u "null"))], true).
Fixpoint rogue_all (keys : list str) (d : defs) (cats : list value) : outcome (defs * list value) :=
  match keys with
  | [] => Ret (d, cats)
  | k :: r =>
      match dget str_eqb (lower k) d with
      | None => Raise KeyErr
      | Some (t, _) =>
          match tget n_category t with
          | None => rogue_all r d cats
          | Some c =>
              if vmem c cats then rogue_all r d cats
              else match c with
                   | VStr cat => obind (d_put (VStr (fake_name cat)) (fake_def cat) d) (fun d1 => rogue_all r d1 (cats ++ [c]))
                   | _ => Raise TypeErr
                   end
          end
      end
  end.

(** 700-704 *)
Definition base_found : found :=
  let types := [VStr (u "char"); VStr (u "numb"); VStr (u "null")] in
  Found types
    [VStr (u ".*"); VStr (u "(-?(([0-9]*[.][0-9]+)|([0-9]+)[.]?)([(][0-9]+[)])?([eEdD][+-]?[0-9]+)?)|\?|\."); VStr [34; 34; 32]%N]
    types [].
(** 772-775: a column that is there already is not replaced. *)
Definition set_locked (att : str) (v : value) (e : entry) : outcome entry :=
  if tmem att (fst e) && negb (snd e) then Raise StarErr else Ret (put att v (fst e), snd e).
Definition store_types (f : found) (d : defs) : outcome defs :=
  match dget str_eqb n_this d with
  | None => Raise KeyErr
  | Some e =>
      obind (set_locked (u "_item_type_list.code") (VList (f_codes f)) e) (fun e1 =>
      obind (set_locked (u "_item_type_list.construct") (VList (f_constructs f)) e1) (fun e2 =>
      obind (set_locked (u "_item_type_list.primitive_code") (VList (f_prims f)) e2) (fun e3 =>
      Ret (dset str_eqb n_this e3 d))))
  end.
Definition ddl1_normalise (d : defs) : outcome defs :=
  obind (split_all d d) (fun d1 =>
  obind (normal_all d1 base_found) (fun df =>
  obind (rogue_all (map fst (fst df)) (fst df) (f_cats (snd df))) (fun dc =>
  store_types (snd df) (fst dc)))).

(** ** create_def_block_table (1138-1155) *)
Definition id_of (cat_spec def_spec : str) (key : str) (t : table) : value :=
  match tget cat_spec t with
  | Some v => v
  | None => match tget def_spec t with Some v => v | None => VStr key end
  end.
Definition unhashable (v : value) : bool := match v with VList _ | VSL _ | VDict _ => true | _ => false end.
Fixpoint repeats (l : list value) : bool := match l with [] => false | v :: r => vmem v r || repeats r end.
Fixpoint id_table (tops : list str) (l : list (value * str)) (ids : list (str * str)) : outcome (list (str * str)) :=
  match l with
  | [] => Ret ids
  | (v, key) :: r =>
      if smem (lower key) tops then id_table tops r ids
      else match v with
           | VStr s => id_table tops r (dset str_eqb (lower s) (lower key) ids)
           | _ => Raise AttributeErr
           end
  end.
Definition def_block_table (cat_spec def_spec : str) (tops : list str) (d : defs) : outcome (list (str * str)) :=
  let proto := map (fun ke => (id_of cat_spec def_spec (fst ke) (fst (snd ke)), fst ke)) d in
  if existsb unhashable (map fst proto) then Raise TypeErr
  else if repeats (map fst proto) then Raise CifErr
  else id_table tops proto [].

(** ** ddl1_cat_load (1000-1030) *)
Definition per_cat := list (value * list value).
Definition cat_get (c : value) (m : per_cat) : list value := match dget py_eq c m with Some l => l | None => [] end.
Definition add_new (v : value) (l : list value) : list value := if vmem v l then l else l ++ [v].
(** get_cat_info (1005-1022): the mandatory items and the unique ones *)
Definition cat_info (id : str) (t : table) (m : per_cat * per_cat) : outcome (per_cat * per_cat) :=
  let cat := obind (att_of n_category t) (fun c => if unhashable c then Raise TypeErr else Ret c) in
  obind (if veq_text (tget n_mandatory t) (u "yes")
         then obind cat (fun c => Ret (dset py_eq c (cat_get c (fst m) ++ [VStr id]) (fst m)))
         else Ret (fst m)) (fun mand =>
  match tget n_unique t with
  | None | Some VNone => Ret (mand, snd m)
  | Some un => obind cat (fun c => Ret (mand, dset py_eq c (add_new un (add_new (VStr id) (cat_get c (snd m)))) (snd m)))
  end).
Fixpoint cat_infos (ids : list str) (d : ddic) (m : per_cat * per_cat) : outcome (per_cat * per_cat) :=
  match ids with
  | [] => Ret m
  | id :: r => obind (k_table id d) (fun t => obind (cat_info id t m) (cat_infos r d))
  end.
(** 1025-1029 *)
Fixpoint cat_store (att : str) (m : per_cat) (d : ddic) : outcome ddic :=
  match m with
  | [] => Ret d
  | (VStr c, l) :: r => match k_set c att (VList l) d with (d1, Ret _) => cat_store att r d1 | (_, Raise e) => Raise e end
  | _ :: _ => Raise AttributeErr
  end.
Definition ddl1_cat_load (d : ddic) : outcome ddic :=
  obind (cat_infos (k_keys d) d ([], [])) (fun m =>
  obind (cat_store (u "_category_mandatory.name") (fst m) d) (cat_store (u "_category_key.name") (snd m))).

(** 549-556 *)
Definition load_ddl1 (d : defs) : outcome ddic :=
  obind (ddl1_normalise d) (fun d1 =>
  obind (def_block_table n_cat_id n_name [n_this] d1) (fun ids =>
  ddl1_cat_load (DDic d1 [] ids []))).

(** ** DDL2_normalise (833-878) *)
Definition m_name : str := u "_item.name".
Definition m_cat : str := u "_item.category_id".
Definition m_mand : str := u "_item.mandatory_code".
Definition m_alias : str := u "_item_aliases.alias_name".
Definition elems_of (o : option value) : option (list value) := match o with Some (VList l) | Some (VSL l) => Some l | _ => None end.
Definition vindex_of (v : value) (l : list value) : outcome nat := match index_of py_eq v l with Some i => Ret i | None => Raise ValueErr end.
Definition step (att : str) (v : value) (key : str) (d : ddic) : outcome ddic :=
  match k_set key att v d with (d1, Ret _) => Ret d1 | (_, Raise e) => Raise e end.
(** self[child] = CifBlock(): the new block has no _definition.id (1169-1182). *)
Definition child_there (child : value) (d : ddic) : outcome str :=
  match child with
  | VStr c => if k_has c d then Ret c else Raise KeyErr
  | _ => Raise AttributeErr
  end.
(** 866-875.  thisdef is the object: its attributes are read again each time. *)
Fixpoint fill_children (def : str) (packet : nat) (nos : list nat) (d : ddic) : outcome ddic :=
  match nos with
  | [] => Ret d
  | i :: r =>
      if i =? packet then fill_children def packet r d
      else
        obind (k_item def m_name d) (fun ns => obind (vindex ns i) (fun child =>
        obind (k_item def m_cat d) (fun cs => obind (vindex cs i) (fun cat =>
        obind (k_item def m_mand d) (fun ms => obind (vindex ms i) (fun mand =>
        obind (child_there child d) (fun c =>
        obind (step m_cat cat c d) (fun d1 =>
        obind (step m_mand mand c d1) (fun d2 => fill_children def packet r d2)))))))))
  end.
(** 859-878 *)
Definition repopulate (def : str) (names : list value) (d : ddic) : outcome ddic :=
  obind (vindex_of (VStr def) names) (fun packet =>
  obind (k_item def m_cat d) (fun cs => obind (vindex cs packet) (fun cat =>
  obind (k_item def m_mand d) (fun ms => obind (vindex ms packet) (fun mand =>
  obind (fill_children def packet (seq 0 (length names)) d) (fun d1 =>
  obind (step m_name (VStr def) def d1) (fun d2 => obind (step m_cat cat def d2) (step m_mand mand def)))))))).
(** 834-838: filter objects are read once and lazily, so that both filters see the
    definitions as they are when their turn comes; what follows (839-844, 888-957) finds
    nothing left in them. *)
Fixpoint dodgy (keys : list str) (d : ddic) : outcome ddic :=
  match keys with
  | [] => Ret d
  | k :: r =>
      obind (k_table k d) (fun t =>
      match elems_of (tget m_name t) with
      | Some l => if 1 <? length l then obind (repopulate k l d) (dodgy r) else dodgy r d
      | None => dodgy r d
      end)
  end.
(** 847-852: the first alias fails when it is stored, because the copy has no
    _definition.id (1169-1182); a DDL2 definition that has one is left out. *)
Fixpoint aliases (keys : list str) (d : ddic) : outcome ddic :=
  match keys with
  | [] => Ret d
  | k :: r =>
      obind (k_table k d) (fun t =>
      match tget m_alias t with
      | None => aliases r d
      | Some v => obind (listify v) (fun l =>
                  match l with
                  | [] => aliases r d
                  | VStr a :: _ =>
                      (* self[aliased].copy() is stored under a: see CollectionModel.v for NewBlock *)
                      if 75 <? length a then Raise StarErr
                      else if smem (lower (fix_name true a)) (with_parent None (k_child d)) then Raise StarErr
                      else if tmem a_def t then Raise NotImplErr
                      else Raise KeyErr
                  | _ => Raise TypeErr
                  end)
      end)
  end.
Definition ddl2_normalise (d : ddic) : outcome ddic :=
  obind (dodgy (k_keys d) d) (fun d1 => aliases (k_keys d1) d1).
(** 549-558 *)
Definition load_ddl2 (roots : list str) (d : defs) : outcome ddic :=
  obind (def_block_table n_cat_id m_name (map lower roots) d) (fun ids => 
  ddl2_normalise (DDic d (map (fun r => (lower r, PC r None)) roots) ids [])).
