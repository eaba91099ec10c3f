(** Model of imports in DDLm dictionaries: attributes read through imports
    (DicBlock, src/CifFile_module.nw 444-496) and the import of a definition with
    everything below it (ddlm_import in full mode, 1693-1741). *)
From Coq Require Import String Ascii List NArith Bool.
From Verif Require Import PyBase StarBlockModel ValidateModel TreeModel.
Import ListNotations.

(** One entry of _import.get: None where the table has no such key.  The default of
    [miss] is Exit and that of [mode] is Contents. *)
Record iref := mkIref { r_file : option str; r_save : option str; r_miss : str; r_mode : str }.
(** A definition: its attributes under lower-case names, its list of imports, and
    the dictionaries cached for it by file name, each as its definitions under
    lower-case ids.  Simplification: a dictionary is looked up by definition id only,
    not by block name nor in dictionaries it imports in full mode. *)
Inductive dicblock := DicBlock (attrs : table) (imports : option (list iref)) (cache : list (str * list (str * dicblock))).
Definition b_attrs (b : dicblock) : table := let (a, _, _) := b in a.
Definition b_imports (b : dicblock) : option (list iref) := let (_, i, _) := b in i.
Definition b_cache (b : dicblock) : list (str * list (str * dicblock)) := let (_, _, c) := b in c.
(** What StarBlock.__getitem__ finds; names are not case sensitive. *)
Definition own (b : dicblock) (name : str) : option value := dget str_eqb (lower name) (b_attrs b).

(** DicBlock.follow_import (475-495).  [get] is __getitem__ of an imported
    definition; StarBlock.get calls it only for names the definition has itself. *)
Fixpoint follow_import (get : dicblock -> str -> outcome value) (cache : list (str * list (str * dicblock))) (refs : list iref) (name : str) (latest : option value) : outcome (option value) :=
  match refs with
  | [] => Ret latest
  | r :: rs =>
      match r_file r with
      | None => Raise KeyErr
      | Some f =>
          match dget str_eqb f cache with
          | None => Raise ValueErr
          | Some dic =>
              match r_save r with
              | None => Raise KeyErr
              | Some k =>
                  match dget str_eqb (lower k) dic with
                  | None => if str_eqb (r_miss r) (u "Exit") then Raise CifErr else follow_import get cache rs name latest
                  | Some t =>
                      if str_eqb (lower (r_mode r)) (u "contents")
                      then match own t name with
                           | Some _ => obind (get t name) (fun v => follow_import get cache rs name (Some v))
                           | None => follow_import get cache rs name latest
                           end
                      else follow_import get cache rs name latest
                  end
              end
          end
      end
  end.
Definition is_empty {A} (l : list A) : bool := match l with [] => true | _ => false end.
(** DicBlock.__getitem__ (452-462); [n] bounds the depth of imports of imports. *)
Fixpoint dic_getitem (n : nat) (b : dicblock) (name : str) : outcome value :=
  match n with
  | O => Raise OutOfFuel
  | Datatypes.S n' =>
      obind (match b_imports b with
             | Some refs => if is_empty (b_cache b) then Ret None else follow_import (dic_getitem n') (b_cache b) refs name None
             | None => Ret None
             end)
        (fun value =>
           match own b name with
           | Some v => Ret v
           | None => match value with Some v => Ret v | None => Raise KeyErr end
           end)
  end.
(** DicBlock.has_key (464-469) *)
Definition dic_has_key (n : nat) (b : dicblock) (name : str) : outcome bool :=
  match dic_getitem n b name with
  | Ret _ => Ret true
  | Raise KeyErr => Ret false
  | Raise e => Raise e
  end.
(** StarBlock.get on a definition (src/StarFile.nw 1630-1635): `in' looks at the
    block's own names only. *)
Definition dic_get_default (n : nat) (b : dicblock) (name : str) (default : option value) : outcome (option value) :=
  match own b name with
  | Some _ => obind (dic_getitem n b name) (fun v => Ret (Some v))
  | None => Ret default
  end.

(** The cache that light imports leave in a definition (ddlm_import_light 1754-1760
    called from obtain_imports): only entries in mode contents are registered. *)
Fixpoint light_cache (dics : list (str * list (str * dicblock))) (refs : list iref) : list (str * list (str * dicblock)) :=
  match refs with
  | [] => []
  | r :: rs => match r_file r with
               | Some f => match dget str_eqb f dics with
                           | Some dic => if str_eqb (lower (r_mode r)) (u "contents") then dset str_eqb f dic (light_cache dics rs) else light_cache dics rs
                           | None => light_cache dics rs
                           end
               | None => light_cache dics rs
               end
  end.

(** ** Heavy import in full mode *)
(** Simplifications: definitions are stored under their lower-case ids, so block
    names are ids and merge_fast never has to rename; frames are not nested. *)
Definition a_object : str := u "_name.object_id".
Definition a_defid : str := u "_definition.id".
Definition def_of (d : defs) (k : str) : outcome table := match dget str_eqb (lower k) d with Some t => Ret t | None => Raise KeyErr end.
Definition attr_of (t : table) (a : str) : outcome str :=
  match tget a t with Some (VStr s) => Ret s | Some _ => Raise AttributeErr | None => Raise KeyErr end.
(** [import_from.block_id_table[a.lower()] for a in child_frames] with the blocks. *)
Fixpoint frames_of (from : defs) (l : list str) : outcome defs :=
  match l with
  | [] => Ret []
  | a :: r => obind (def_of from a) (fun t => obind (frames_of from r) (fun fs => Ret ((lower a, t) :: fs)))
  end.
(** child_blocks[a].get('_definition.id','').lower() in self *)
Definition superseded (d : defs) (t : table) : outcome bool :=
  match tget a_defid t with
  | None => Ret (dmem str_eqb [] d)
  | Some (VStr s) => Ret (dmem str_eqb (lower s) d)
  | Some _ => Raise AttributeErr
  end.
Fixpoint prune (d fs : defs) : outcome defs :=
  match fs with
  | [] => Ret []
  | (k, t) :: r => obind (superseded d t) (fun b => obind (prune d r) (fun l => Ret (if b then l else (k, t) :: l)))
  end.
(** self[f]['_name.category_id'] = merging_cat *)
Definition set_category (m : str) (t : table) : table := dset str_eqb a_category (VStr m) t.
Definition reparent (m : str) (kids : list str) (d : defs) : defs := map (fun kt => if smem (fst kt) kids then (fst kt, set_category m (snd kt)) else kt) d.
(** del self[key] *)
Definition del_def (k : str) (d : defs) : outcome defs :=
  match dget str_eqb (lower k) d with Some _ => Ret (filter (fun kt => negb (str_eqb (fst kt) (lower k))) d) | None => Raise KeyErr end.
(** [d for d in self.keys() if self[d]['_definition.id']==from_frame] *)
Fixpoint with_id (d : defs) (i : str) : outcome (list str) :=
  match d with
  | [] => Ret []
  | (k, t) :: r => match tget a_defid t with
                   | None => Raise KeyErr
                   | Some v => obind (with_id r i) (fun l => Ret (if veq_text (Some v) i then k :: l else l))
                   end
  end.
(** del self[parent_block]["_import.get"] *)
Definition drop_import (parent : str) (d : defs) : outcome defs :=
  obind (def_of d parent) (fun _ => Ret (map (fun kt => if str_eqb (fst kt) (lower parent) then (fst kt, filter (fun av => negb (str_eqb (fst av) (u "_import.get"))) (snd kt)) else kt) d)).
(** ddlm_import, mode full (1693-1741) *)
Definition full_import (n : nat) (d : defs) (parent : str) (from : defs) (target : str) : outcome defs :=
  obind (def_of from target) (fun tt =>
  obind (attr_of tt a_object) (fun head =>
  obind (all_children n from head) (fun frames =>
  obind (def_of d parent) (fun pt =>
  let h2h := is_head pt && is_head tt in
  let frames := if h2h then frames else remove1 str_eqb head frames in
  obind (frames_of from frames) (fun fs =>
  obind (prune d fs) (fun fs =>
  let d1 := d ++ fs in
  obind (def_of d1 parent) (fun pt =>
  obind (attr_of pt a_object) (fun m =>
  obind (if h2h
         then obind (immediate_children d1 head) (fun kids => del_def head (reparent m kids d1))
         else obind (attr_of tt a_defid) (fun i =>
              obind (with_id d1 i) (fun l =>
              match l with
              | [] => Raise IndexErr
              | k :: _ => Ret (reparent m [k] d1)
              end)))
    (fun d2 => drop_import parent d2))))))))).
