(** Model of the tables that a DDLm dictionary builds for its loop categories:
    create_cat_obj_table, get_loopable_cats, create_cat_key_table
    (src/CifFile_module.nw 1059-1127), get_name_by_cat_obj (1523-1534), the key
    hierarchy (1600-1622), and validate_loop_key_ddlm (2218-2230), which uses them. *)
From Coq Require Import String Ascii List NArith Bool.
From Verif Require Import PyBase StarBlockModel ValidateModel TreeModel.
Import ListNotations.

Definition a_object : str := u "_name.object_id".
Definition a_def_id : str := u "_definition.id".
Definition a_key_name : str := u "_category_key.name".
Definition a_key_id : str := u "_category.key_id".
Definition a_linked : str := u "_name.linked_item_id".

(** self[a], [a] any spelling *)
Definition def_of (d : defs) (a : str) : outcome table := match dget str_eqb (lower a) d with Some t => Ret t | None => Raise KeyErr end.
(** get_loopable_cats (1103-1107) *)
Definition loopable (d : defs) : list str := map (fun kt => lower (fst kt)) (filter (fun kt => is_loop (snd kt)) d).

(** expand_list (1064-1068): the loop categories directly below each loop category
    that has any. *)
Fixpoint expand_list_of (d : defs) (all l : list str) : outcome (list (str * list str)) :=
  match l with
  | [] => Ret []
  | a :: r =>
      obind (immediate_children d a) (fun kids =>
      obind (expand_list_of d all r) (fun rest =>
      Ret (match filter (fun b => smem (lower b) all) kids with [] => rest | ks => (a, ks) :: rest end)))
  end.
Definition expand_list (d : defs) : outcome (list (str * list str)) := expand_list_of d (loopable d) (loopable d).

(** ** create_cat_obj_table *)
Definition pair_eqb (a b : str * str) : bool := str_eqb (fst a) (fst b) && str_eqb (snd a) (snd b).
Definition objtable := list ((str * str) * list str).
(** .get(name,'').lower() *)
Definition lower_text (name : str) (t : table) : outcome str :=
  match tget name t with None => Ret [] | Some (VStr s) => Ret (lower s) | Some _ => Raise AttributeErr end.
(** .get('_definition.scope','Item')=='Item' *)
Definition is_item (t : table) : bool := match tget a_scope t with None => true | o => veq_text o (u "Item") end.
(** 1061-1062.  Simplification: definition ids are texts. *)
Fixpoint base_table (d : defs) (acc : objtable) : outcome objtable :=
  match d with
  | [] => Ret acc
  | (_, t) :: r =>
      if is_item t then
        obind (lower_text a_category t) (fun c => obind (lower_text a_object t) (fun o =>
        match tget a_def_id t with
        | None => base_table r (dset pair_eqb (c, o) [[]] acc)
        | Some (VStr i) => base_table r (dset pair_eqb (c, o) [i] acc)
        | Some _ => Raise TypeErr
        end))
      else base_table r acc
  end.
(** [(self[n]['_name.object_id'].lower(),self[n]['_definition.id']) for n in
    self.names_in_cat(c) if self[n].get('_type.purpose','') != 'Key'] (1081-1082) *)
Fixpoint pairs_of (d : defs) (names : list str) : outcome (list (str * str)) :=
  match names with
  | [] => Ret []
  | n :: r =>
      obind (def_of d n) (fun t =>
      if veq_text (tget (u "_type.purpose") t) (u "Key") then pairs_of d r
      else match tget a_object t, tget a_def_id t with
           | Some (VStr o), Some (VStr i) => obind (pairs_of d r) (fun l => Ret ((lower o, i) :: l))
           | Some (VStr _), Some _ => Raise TypeErr    (* simplification *)
           | Some (VStr _), None => Raise KeyErr
           | Some _, _ => Raise AttributeErr
           | None, _ => Raise KeyErr
           end)
  end.
Definition cat_pairs (d : defs) (c : str) : outcome (list (str * str)) := obind (names_in_cat d c) (pairs_of d).
(** extra_table.update(dict([...])) (1084); the condition looks for the name where the
    table has objects. *)
Definition add_pairs (p : str) (l : list (str * str)) (x : objtable) : objtable :=
  fold_left (fun acc on => dset pair_eqb (p, fst on) [snd on] acc) (filter (fun on => negb (dmem pair_eqb (p, snd on) x)) l) x.
(** 1086-1088, again with object and name looked for as category and object. *)
Fixpoint append_repeats (p : str) (l : list (str * str)) (x : objtable) : outcome objtable :=
  match l with
  | [] => Ret x
  | (o, nm) :: r =>
      match dget pair_eqb (p, o) x with
      | None => Raise KeyErr
      | Some ns => append_repeats p r (dset pair_eqb (p, o) (ns ++ [nm]) x)
      end
  end.
(** The loop of expand_base_table over the child categories (1074-1084); it keeps the
    names of the last child, and those from the nested calls. *)
Fixpoint each_child (rec : str -> list str -> objtable -> outcome (objtable * list (str * str))) (d : defs) (el : list (str * list str))
  (p : str) (kids : list str) (extra cn : list (str * str)) (x : objtable) : outcome (objtable * list (str * str)) :=
  match kids with
  | [] => Ret (x, cn)
  | c :: r =>
      obind (match dget str_eqb c el with Some ks => rec c ks x | None => Ret (x, []) end) (fun xn =>
      obind (cat_pairs d c) (fun own =>
      let extra' := extra ++ snd xn in
      let cn' := own ++ extra' in
      each_child rec d el p r extra' cn' (add_pairs p cn' (fst xn))))
  end.
(** expand_base_table (1071-1092); [n] bounds the depth. *)
Fixpoint expand_base (n : nat) (d : defs) (el : list (str * list str)) (p : str) (kids : list str) (x : objtable) : outcome (objtable * list (str * str)) :=
  match n with
  | O => Raise OutOfFuel
  | Datatypes.S n' =>
      obind (each_child (expand_base n' d el) d el p kids [] [] x) (fun xn =>
      obind (append_repeats p (filter (fun on => dmem pair_eqb on (fst xn)) (snd xn)) (fst xn)) (fun x' =>
      obind (cat_pairs d p) (fun own => Ret (x', snd xn ++ own))))
  end.
Fixpoint expand_all (n : nat) (d : defs) (el l : list (str * list str)) (x : objtable) : outcome objtable :=
  match l with
  | [] => Ret x
  | (p, kids) :: r => obind (expand_base n d el p kids x) (fun xn => expand_all n d el r (fst xn))
  end.
(** 1096-1100: what is in both is appended. *)
Definition join_tables (base extra : objtable) : objtable :=
  map (fun kv => (fst kv, snd kv ++ match dget pair_eqb (fst kv) extra with Some l => l | None => [] end)) base
  ++ filter (fun kv => negb (dmem pair_eqb (fst kv) base)) extra.
Definition cat_obj_table (n : nat) (d : defs) : outcome objtable :=
  obind (base_table d []) (fun base =>
  obind (expand_list d) (fun el =>
  obind (expand_all n d el el []) (fun extra => Ret (join_tables base extra)))).
(** get_name_by_cat_obj (1523-1534) with give_default False *)
Definition name_by_cat_obj (tbl : objtable) (cat obj : str) : outcome str :=
  match cat with
  | [] => Raise IndexErr
  | c :: r =>
      let true_cat := lower (if N.eqb c 95 then r else cat) in
      match dget pair_eqb (true_cat, lower obj) tbl with
      | None => Raise KeyErr
      | Some [] => Raise IndexErr
      | Some (nm :: _) => Ret nm
      end
  end.

(** ** create_cat_key_table (1109-1127) *)
(** listify(self[c].get("_category_key.name",[self[c].get("_category.key_id")])).
    Simplification: values that are neither texts nor lists raise. *)
Definition own_key (t : table) : outcome (list value) :=
  match tget a_key_name t with
  | Some (VStr s) => Ret [VStr s]
  | Some (VList l) | Some (VSL l) => Ret l
  | Some _ => Raise TypeErr
  | None => Ret [match tget a_key_id t with Some v => v | None => VNone end]
  end.
Definition keytable := list (str * list (list value)).
Fixpoint own_keys (d : defs) (cats : list str) : outcome keytable :=
  match cats with
  | [] => Ret []
  | c :: r => obind (def_of d c) (fun t => obind (own_key t) (fun k => obind (own_keys d r) (fun l => Ret ((c, [k]) :: l))))
  end.
(** The loop of collect_keys.  The nested call lacks an argument. *)
Fixpoint collect (d : defs) (el : list (str * list str)) (kids : list str) : outcome (list (list value)) :=
  match kids with
  | [] => Ret []
  | c :: r =>
      if dmem str_eqb c el then Raise TypeErr
      else obind (def_of d c) (fun t => obind (own_key t) (fun k => obind (collect d el r) (fun l => Ret (k :: l))))
  end.
Fixpoint collect_all (d : defs) (el l : list (str * list str)) (tbl : keytable) : outcome keytable :=
  match l with
  | [] => Ret tbl
  | (p, kids) :: r =>
      obind (collect d el kids) (fun kk =>
      match dget str_eqb p tbl with
      | None => Raise KeyErr
      | Some old => collect_all d el r (dset str_eqb p (old ++ kk) tbl)
      end)
  end.
Definition cat_key_table (d : defs) : outcome keytable :=
  obind (own_keys d (loopable d)) (fun tbl => obind (expand_list d) (fun el => collect_all d el el tbl)).

(** validate_loop_key_ddlm (2218-2230).  Simplification: of the keys reported only the
    texts are kept. *)
Definition key_in (names : list str) (v : value) : bool := match v with VStr s => smem s names | _ => false end.
Definition validate_loop_key_ddlm (d : cifdic) (tbl : keytable) (names : list str) : outcome result :=
  obind (get_final_cats d names) (fun cs =>
  match cs with
  | [] => Ret RTrue
  | c :: _ =>
      match dget str_eqb c tbl with
      | None => Raise KeyErr
      | Some [] => Raise IndexErr
      | Some (poss :: _) => Ret (if existsb (key_in names) poss then RTrue
                                 else RFalse [] (flat_map (fun v => match v with VStr s => [s] | _ => [] end) poss))
      end
  end).

(** ** The key hierarchy (1600-1622) *)
(** listify(self[c]['_category_key.name']) as names *)
Definition key_names (t : table) : outcome (list str) :=
  match tget a_key_name t with
  | None => Raise KeyErr
  | Some (VStr s) => Ret [s]
  | Some (VList l) | Some (VSL l) => texts l
  | Some _ => Raise TypeErr
  end.
Fixpoint linked_keys (d : defs) (keys : list str) : outcome (list str) :=
  match keys with
  | [] => Ret []
  | k :: r => obind (def_of d k) (fun t =>
      match tget a_linked t with
      | None => Raise KeyErr
      | Some (VStr s) => obind (linked_keys d r) (fun l => Ret (s :: l))
      | Some _ => Raise TypeErr                       (* not hashable *)
      end)
  end.
Definition same_set (a b : list str) : bool := forallb (fun x => smem x b) a && forallb (fun x => smem x a) b.
Definition equivs := list (str * list str).
(** self.key_equivs[child] = self.key_equivs.get(child,[])+[parent] *)
Definition add_equiv (child parent : str) (e : equivs) : equivs :=
  dset str_eqb child (match dget str_eqb child e with Some l => l | None => [] end ++ [parent]) e.
(** self[x]['_name.category_id'] *)
Definition category_text (d : defs) (x : str) : outcome str :=
  obind (def_of d x) (fun t => match tget a_category t with None => Raise KeyErr | Some (VStr s) => Ret s | Some _ => Raise AttributeErr end).
(** One round and the rounds after it; [n] bounds their number. *)
Fixpoint follow_keys (n : nat) (d : defs) (cats : list str) (start lower_keys : list str) (e : equivs) : outcome equivs :=
  match lower_keys with
  | [] => Ret e
  | k :: _ =>
      obind (category_text d k) (fun this_cat =>
      obind (if match cats with [] => true | _ => false end then Ret [] else category_text d this_cat) (fun up =>
      match filter (fun a => str_eqb (lower up) a) cats with
      | [] => Ret e
      | [parent] =>
          obind (def_of d parent) (fun pt => obind (key_names pt) (fun pk =>
          obind (linked_keys d lower_keys) (fun lk =>
          if same_set pk lk then
            match n with
            | O => Raise OutOfFuel
            | Datatypes.S n' => follow_keys n' d cats start lk (fold_left (fun e pc => add_equiv (snd pc) (fst pc) e) (combine lk start) e)
            end
          else Raise CifErr)))
      | _ => Raise CifErr
      end))
  end.
Fixpoint hierarchy (n : nat) (d : defs) (all l : list str) (e : equivs) : outcome equivs :=
  match l with
  | [] => Ret e
  | c :: r => obind (def_of d c) (fun t => obind (key_names t) (fun ks => obind (follow_keys n d all ks ks e) (hierarchy n d all r)))
  end.
Definition key_equivs (n : nat) (d : defs) : outcome equivs := hierarchy n d (looped_cats d) (looped_cats d) [].
