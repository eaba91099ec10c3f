(** Model of how a DDLm dictionary resolves its imports: obtain_imports
    (src/CifFile_module.nw 1646-1684), with the light imports of whole dictionaries
    (ddlm_import_light 1754-1776), the search in them (lookup_imports 1782-1789, from
    __getitem__ 1157-1167) and the reading of the files that are named, which resolve
    their own imports (CifDic.__init__ 561-562).  No proofs here. *)
From Coq Require Import String Ascii List NArith PeanoNat Bool.
From Verif Require Import PyBase StarBlockModel ValidateModel TreeModel ImportModel.
Import ListNotations.
Open Scope nat_scope.

(** An entry of _import.get; None where the table has no such key. *)
Record gref := mkRef { g_file : option str; g_save : option str; g_mode : option str; g_miss : option str; g_dupl : option str }.
Definition with_default (x : option str) (s : string) : str := match x with Some v => v | None => u s end.
Definition mode_of (r : gref) : str := lower (with_default (g_mode r) "Contents").
Definition miss_of (r : gref) : str := with_default (g_miss r) "Exit".
Definition dupl_of (r : gref) : str := with_default (g_dupl r) "Exit".
(** A dictionary file: its definitions under lower-case ids, and the entries of those
    which import, in the order of the definitions.  Simplification: block names are
    ids, as in ImportModel. *)
Record raw := mkRaw { w_defs : defs; w_refs : list (str * list gref) }.
(** A dictionary that was read: template_cache by full name, and _import_dics with the
    names of dictionaries in it. *)
Inductive sdic := SDic (own : defs) (cache : list (str * sdic)) (imports : list (str * str)).
Definition s_own (d : sdic) : defs := let (o, _, _) := d in o.
Definition s_cache (d : sdic) : list (str * sdic) := let (_, c, _) := d in c.
Definition s_imports (d : sdic) : list (str * str) := let (_, _, i) := d in i.

Section Lookup.
  (** Bounds the depth of the category trees. *)
  Context (depth : nat).
  (** lookup_imports (1782-1789); [get] is __getitem__ of an imported dictionary. *)
  Fixpoint lookup (get : sdic -> str -> outcome table) (cache : list (str * sdic)) (l : list (str * str)) (key : str) : outcome table :=
    match l with
    | [] => Raise KeyErr
    | (uri, head) :: r =>
        match dget str_eqb uri cache with
        | None => Raise KeyErr
        | Some one =>
            obind (get one head) (fun ht => obind (attr_of ht a_object) (fun h =>
            obind (all_children depth (s_own one) h) (fun possible =>
            if smem key possible then get one key else lookup get cache r key)))
        end
    end.
  (** __getitem__ (1157-1167); [n] bounds the depth of imports. *)
  Fixpoint s_get (n : nat) (d : sdic) (key : str) : outcome table :=
    match n with
    | O => Raise OutOfFuel
    | S m => match dget str_eqb (lower key) (s_own d) with
             | Some t => Ret t
             | None => lookup (s_get m) (s_cache d) (s_imports d) key
             end
    end.
End Lookup.

(** ** obtain_imports *)
(** 1649-1656 *)
Definition frames (mode : str) (w : raw) : list (str * gref) :=
  flat_map (fun kr => map (pair (fst kr)) (filter (fun r => str_eqb mode (u "All") || str_eqb (mode_of r) (lower mode)) (snd kr))) (w_refs w).
(** What has been done so far; the last two are kept for the statements: the entries in
    mode contents that were registered (parent, file), and the files that were read. *)
Record ostate := mkState {
  o_defs : defs; o_cache : list (str * sdic); o_imports : list (str * str); o_contents : list (str * str); o_read : list str }.
(** self[parent].merge(target), 1696: strict mode (src/StarFile.nw 3133-3146).
    Simplification: attributes are compared by lower-case name, loops are not followed
    (C40). *)
Fixpoint strict_merge (new t : table) : outcome table :=
  match new with
  | [] => Ret t
  | (k, v) :: r => if dmem str_eqb k t then Raise StarErr else strict_merge r (t ++ [(k, v)])
  end.
Definition set_def (k : str) (t : table) (d : defs) : defs := map (fun kt => if str_eqb (fst kt) k then (k, t) else kt) d.

Section Obtain.
  Context (depth fuel : nat) (heavy : bool) (resolve : str -> str) (fetch : str -> outcome sdic).
  (** 1660-1666 *)
  Definition get_dic (uri : str) (st : ostate) : outcome (sdic * ostate) :=
    match dget str_eqb uri (o_cache st) with
    | Some d => Ret (d, st)
    | None => obind (fetch uri) (fun d =>
        Ret (d, mkState (o_defs st) (o_cache st ++ [(uri, d)]) (o_imports st) (o_contents st) (o_read st ++ [uri])))
    end.
  (** ddlm_import (1693-1741) *)
  Definition heavy_import (parent : str) (from : sdic) (target : table) (key mode : str) (st : ostate) : outcome ostate :=
    let put d := mkState d (o_cache st) (o_imports st) (o_contents st) (o_read st) in
    if str_eqb mode (u "contents") then
      obind (def_of (o_defs st) parent) (fun pt => obind (strict_merge target pt) (fun t =>
      obind (drop_import parent (set_def (lower parent) t (o_defs st))) (fun d => Ret (put d))))
    else if str_eqb mode (u "full") then
      obind (full_import depth (o_defs st) parent (s_own from) key) (fun d => Ret (put d))
    else Ret st.
  (** ddlm_import_light (1754-1776).  Simplification: the definition whose category is
      changed is one of the imported dictionary's own. *)
  Definition light_import (parent uri file : str) (from : sdic) (target : table) (key mode : str) (st : ostate) : outcome ostate :=
    if str_eqb mode (u "contents") then
      obind (def_of (o_defs st) parent) (fun _ => Ret (mkState (o_defs st) (o_cache st) (o_imports st) (o_contents st ++ [(parent, file)]) (o_read st)))
    else if str_eqb mode (u "full") then
      obind (def_of (o_defs st) parent) (fun pt =>
      obind (attr_of target a_defid) (fun head =>
      obind (attr_of pt a_object) (fun m =>
      obind (attr_of target a_object) (fun _ =>
      let from' := if is_head pt && is_head target then from
                   else SDic (map (fun kt => if str_eqb (fst kt) (lower key) then (fst kt, set_category m (snd kt)) else kt) (s_own from)) (s_cache from) (s_imports from) in
      Ret (mkState (o_defs st) (dset str_eqb uri from' (o_cache st)) ((uri, head) :: o_imports st) (o_contents st) (o_read st))))))
    else Ret st.
  (** 1659-1684 *)
  Definition step (pr : str * gref) (st : ostate) : outcome ostate :=
    let (parent, r) := pr in
    match g_file r with
    | None => Raise KeyErr
    | Some file =>
        obind (get_dic (resolve file) st) (fun x =>
        let (from, st1) := x in
        match g_save r with
        | None => Raise KeyErr
        | Some key =>
            match s_get depth fuel from key with
            | Raise KeyErr => if str_eqb (miss_of r) (u "Exit") then Raise CifErr else Ret st1
            | Raise e => Raise e
            | Ret target =>
                if dmem str_eqb (lower key) (o_defs st1) && str_eqb (mode_of r) (u "full") && str_eqb (dupl_of r) (u "Exit") then Raise CifErr
                else if dmem str_eqb (lower key) (o_defs st1) && str_eqb (mode_of r) (u "full") && str_eqb (dupl_of r) (u "Ignore") then Ret st1
                else if heavy then heavy_import parent from target key (mode_of r) st1
                else light_import parent (resolve file) file from target key (mode_of r) st1
            end
        end)
    end.
  Fixpoint steps (l : list (str * gref)) (st : ostate) : outcome ostate :=
    match l with [] => Ret st | pr :: r => obind (step pr st) (steps r) end.
End Obtain.

(** CifDic(uri, do_imports = mode, heavy = heavy), 561-562, 1664; [n] bounds how deep
    dictionaries read further ones.  [resolve] is resolve_path (1743-1748). *)
Section Load.
  Context (depth : nat) (heavy : bool) (mode : str) (resolve : str -> str -> str) (files : str -> option raw).
  Definition start (w : raw) : ostate := mkState (w_defs w) [] [] [] [].
  Fixpoint load (n : nat) (uri : str) : outcome sdic :=
    match n with
    | O => Raise OutOfFuel
    | S m =>
        match files uri with
        | None => Raise StarErr
        | Some w =>
            if str_eqb mode (u "No") then Ret (SDic (w_defs w) [] [])
            else obind (steps depth n heavy (resolve uri) (load m) (frames mode w) (start w)) (fun st =>
                 Ret (SDic (o_defs st) (o_cache st) (o_imports st)))
        end
    end.
End Load.
