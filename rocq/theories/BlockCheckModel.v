(** Model of the remaining checks: loop references (src/CifFile_module.nw 2238-2270),
    mandatory categories (2597-2607), mandatory and prohibited attributes of DDLm
    (2618-2645) and how they are called (2664-2667). *)
From Coq Require Import String Ascii List NArith Bool.
From Verif Require Import PyBase StarBlockModel ValidateModel.
Import ListNotations.

(** ** validate_loop_references *)
(** 2239-2240 *)
Fixpoint reference_values (d : cifdic) (names : list str) : outcome (list value) :=
  match names with
  | [] => Ret []
  | a :: r => obind (dic_get d a) (fun def => obind (reference_values d r) (fun vs =>
      Ret (match tget (d_list_ref d) def with Some v => v :: vs | None => vs end)))
  end.
(** flat_func over all of them (2243-2249) *)
Definition flat_one (v : value) : outcome (list str) :=
  match v with
  | VStr s => Ret [lower s]
  | _ => obind (iterate v) (fun l => obind (texts l) (fun t => Ret (map lower t)))
  end.
Fixpoint flat_names (vs : list value) : outcome (list str) :=
  match vs with [] => Ret [] | v :: r => obind (flat_one v) (fun a => obind (flat_names r) (fun b => Ret (a ++ b))) end.
(** a[-1]=="_" *)
Definition ends_under (a : str) : outcome bool := match rev a with [] => Raise IndexErr | c :: _ => Ret (c =? 95)%N end.
(** check_gr (2253-2256): some name begins like the group. *)
Definition group_there (names : list str) (g : str) : bool := existsb (fun n => str_eqb (firstn (length g) n) g) names.
Fixpoint with_alternates (d : cifdic) (l : list str) : outcome (list (str * list str)) :=
  match l with [] => Ret [] | a :: r => obind (get_alternates d a false) (fun x => obind (with_alternates d r) (fun y => Ret ((a, x) :: y))) end.
(** 2238-2270.  The groups that are there, not those that are missing, are
    collected (2257); they only decide whether the alternates are looked at. *)
Definition validate_loop_references (d : cifdic) (names : list str) : outcome result :=
  obind (reference_values d names) (fun vs =>
  obind (flat_names vs) (fun must =>
  obind (filterM ends_under must) (fun groups =>
  obind (filterM (fun a => obind (ends_under a) (fun b => Ret (negb b))) must) (fun singles =>
  let res := filter (fun a => negb (smem a names)) singles in
  match res, filter (group_there names) groups with
  | [], [] => Ret RTrue
  | _, _ =>
      obind (with_alternates d res) (fun alts =>
      match map fst (filter (fun a => match snd a with [] => true | _ => false end) alts) with
      | [] => match find (fun a => negb (existsb (fun x => smem x names) (snd a))) alts with
              | Some a => Ret (RFalse [] [fst a])
              | None => Ret RTrue
              end
      | missing => Ret (RFalse [] missing)
      end)
  end)))).

(** ** validate_mandatory_category (2597-2607) *)
Fixpoint mandatory_cats (defs : list (str * table)) : outcome (list str) :=
  match defs with
  | [] => Ret []
  | (_, t) :: r =>
      if veq_text (tget (u "_category.mandatory_code") t) (u "yes")
      then match tget (u "_category.id") t with
           | None => Raise KeyErr
           | Some (VStr c) => obind (mandatory_cats r) (fun l => Ret (c :: l))
           | Some _ => Raise TypeErr                  (* not hashable *)
           end
      else mandatory_cats r
  end.
(** set([self[a].get(self.cat_spec) for a in whole_block.keys()]) without None *)
Fixpoint block_cats (d : cifdic) (names : list str) : outcome (list str) :=
  match names with
  | [] => Ret []
  | a :: r => obind (dic_get d a) (fun def =>
      match tget (d_cat_spec d) def with
      | None => block_cats d r
      | Some (VStr c) => obind (block_cats d r) (fun l => Ret (c :: l))
      | Some _ => Raise TypeErr                       (* not hashable *)
      end)
  end.
Definition validate_mandatory_category (d : cifdic) (t : table) : outcome result :=
  obind (mandatory_cats (d_defs d)) (fun mand =>
  match mand with
  | [] => Ret RTrue
  | _ => obind (block_cats d (tkeys t)) (fun cats =>
         match filter (fun m => negb (smem m cats)) mand with [] => Ret RTrue | missing => Ret (RFalse [] missing) end)
  end).

(** ** Mandatory and prohibited attributes *)
Definition scopes := list (str * list str).
(** whole_block.get('_definition.scope',default_scope), or Dictionary *)
Definition scope_of (t : table) (default : str) : outcome str :=
  if tmem (u "_dictionary.title") t then Ret (u "Dictionary")
  else match tget (u "_definition.scope") t with
       | None => Ret default
       | Some (VStr s) => Ret s
       | Some _ => Raise TypeErr                      (* not hashable *)
       end.
Definition check_scope (pick : str -> bool) (sc : scopes) (t : table) (default : str) : outcome result :=
  match sc with
  | [] => Ret RTrue
  | _ => if str_eqb default (u "Datablock") then Ret RTrue
         else obind (scope_of t default) (fun s =>
              match dget str_eqb s sc with
              | None => Raise KeyErr
              | Some names => match filter pick names with [] => Ret RTrue | bad => Ret (RFalse [] bad) end
              end)
  end.
Definition check_mandatory_items (sc : scopes) (t : table) (default : str) : outcome result := check_scope (fun a => negb (tmem a t)) sc t default.
Definition check_prohibited_items (sc : scopes) (t : table) (default : str) : outcome result := check_scope (fun a => tmem a t) sc t default.
(** run_block_validation (2664-2667) does not hand on the scope it is given, so the
    functions use their default 'Item'. *)
Definition block_checks_ddlm (mand naughty : scopes) (block_scope : str) (t : table) : outcome (list (str * result)) :=
  run_all (fun f => f t)
    [(u "check_mandatory_items", fun t => check_mandatory_items mand t (u "Item"));
     (u "check_prohibited_items", fun t => check_prohibited_items naughty t (u "Item"))].
