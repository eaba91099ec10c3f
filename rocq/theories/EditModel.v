(** Model of the methods that edit a DDLm dictionary: rename, __delitem__, lock and
    unlock of CifDic (src/CifFile_module.nw 1184-1193, 1224-1247), change_category_name
    .. remove_definition (1371-1504) and get_name_by_cat_obj (1523-1534), with the
    methods of BlockCollection that they end up in (src/StarFile.nw 322-336, 416-418,
    461-471, 526-616), where self[..], del self[..] and self.keys() are those of CifDic.

    Simplifications: a definition is its table of attributes and its overwrite flag,
    and setting an attribute checks that flag only (the checks of names and values are
    in StarBlockModel.v); lower_keys are the keys of dictionary; visible_keys, the
    order of output, grammar and character set are left out (CollectionModel.v); there
    are no imported dictionaries; a block found under two keys is copied. *)
From Coq Require Import String Ascii List NArith Bool.
From Verif Require Import PyBase StarBlockModel ValidateModel CollectionModel TreeModel.
Import ListNotations.

Definition entry := (table * bool)%type.    (* attributes, overwrite *)
Record ddic := DDic {
  k_blocks : list (str * entry);   (* self.dictionary *)
  k_child : list (str * pc);       (* self.child_table *)
  k_ids : list (str * str);        (* self.block_id_table *)
  k_objs : list (str * str * str)  (* self.cat_obj_lookup_table: category, object, first name *)
}.
Definition set_blocks b d := DDic b (k_child d) (k_ids d) (k_objs d).
Definition set_kchild t d := DDic (k_blocks d) t (k_ids d) (k_objs d).
Definition set_ids i d := DDic (k_blocks d) (k_child d) i (k_objs d).

Definition a_object : str := u "_name.object_id".
Definition a_def : str := u "_definition.id".
Definition a_text : str := u "_description.text".
Definition a_title : str := u "_dictionary.title".

(** CifDic.__getitem__ (1157-1167): the key of the block that is found. *)
Definition k_find (key : str) (d : ddic) : outcome str :=
  let own := if dmem str_eqb (lower key) (k_blocks d) then Ret (lower key) else Raise KeyErr in
  match dget str_eqb (lower key) (k_ids d) with
  | Some b => if dmem str_eqb (lower b) (k_blocks d) then Ret (lower b) else own
  | None => own
  end.
Definition k_get (key : str) (d : ddic) : outcome entry :=
  obind (k_find key d) (fun b => match dget str_eqb b (k_blocks d) with Some e => Ret e | None => Raise KeyErr end).
Definition k_table (key : str) (d : ddic) : outcome table := obind (k_get key d) (fun e => Ret (fst e)).
(** CifDic.__contains__ (1205-1209), keys (1195-1200). *)
Definition k_has (key : str) (d : ddic) : bool := dmem str_eqb (lower key) (k_ids d).
Definition k_keys (d : ddic) : list str := map fst (k_ids d).
(** self[key][att], and self[key][att] = value (StarFile.nw 1526-1530, 1718-1754). *)
Definition k_item (key att : str) (d : ddic) : outcome value :=
  obind (k_table key d) (fun t => match tget att t with Some v => Ret v | None => Raise KeyErr end).
Definition k_set (key att : str) (v : value) (d : ddic) : ddic * outcome unit :=
  match k_find key d with
  | Raise e => (d, Raise e)
  | Ret b => match dget str_eqb b (k_blocks d) with
             | None => (d, Raise KeyErr)
             | Some (t, over) =>
                 if tmem att t && negb over then (d, Raise StarErr)
                 else (set_blocks (dset str_eqb b (dset str_eqb (lower att) v t, over) (k_blocks d)) d, Ret tt)
             end
  end.
(** A sequence of statements. *)
Definition then_ {A B} (x : ddic * outcome A) (f : A -> ddic -> ddic * outcome B) : ddic * outcome B :=
  match x with (d, Ret a) => f a d | (d, Raise e) => (d, Raise e) end.
(** An expression that does not change the dictionary. *)
Definition look {A B} (x : outcome A) (d : ddic) (f : A -> ddic * outcome B) : ddic * outcome B :=
  match x with Ret a => f a | Raise e => (d, Raise e) end.
Fixpoint each (f : str -> ddic -> ddic * outcome unit) (l : list str) (d : ddic) : ddic * outcome unit :=
  match l with [] => (d, Ret tt) | a :: r => then_ (f a d) (fun _ => each f r) end.

(** unlock and lock (1224-1232) *)
Definition set_flag (ov : bool) (key : str) (d : ddic) : ddic * outcome unit :=
  match k_find key d with
  | Raise e => (d, Raise e)
  | Ret b => match dget str_eqb b (k_blocks d) with
             | None => (d, Raise KeyErr)
             | Some (t, _) => (set_blocks (dset str_eqb b (t, ov) (k_blocks d)) d, Ret tt)
             end
  end.
Definition k_flags (ov : bool) (d : ddic) : ddic * outcome unit := each (set_flag ov) (k_keys d) d.

(** BlockCollection.__delitem__ (StarFile.nw 322-336); [del] is del self[child]. *)
Definition star_del (del : str -> ddic -> ddic * outcome unit) (key : str) (d : ddic) : ddic * outcome unit :=
  look (k_find key d) d (fun _ =>
  then_ (each del (with_parent (Some (lower key)) (k_child d)) d) (fun _ d =>
  if negb (dmem str_eqb (lower key) (k_blocks d)) then (d, Raise KeyErr) else
  let d := set_blocks (ddel str_eqb (lower key) (k_blocks d)) d in
  if negb (dmem str_eqb (lower key) (k_child d)) then (d, Raise KeyErr) else
  (set_kchild (ddel str_eqb (lower key) (k_child d)) d, Ret tt))).
(** CifDic.__delitem__ (1184-1191); AttributeError does not arise. *)
Fixpoint del_def (n : nat) (key : str) (d : ddic) : ddic * outcome unit :=
  match n with
  | O => (d, Raise RecursionErr)
  | Datatypes.S n' =>
      match dget str_eqb (lower key) (k_ids d) with
      | None => star_del (del_def n') key d
      | Some b =>
          match star_del (del_def n') b d with
          | (d', Ret _) => if dmem str_eqb (lower key) (k_ids d') then (set_ids (ddel str_eqb (lower key) (k_ids d')) d', Ret tt)
                           else star_del (del_def n') key d'
          | (d', Raise KeyErr) => star_del (del_def n') key d'
          | (d', Raise e) => (d', Raise e)
          end
      end
  end.
Definition k_del (key : str) (d : ddic) : ddic * outcome unit := del_def (Datatypes.S (length (k_child d))) key d.

(** _rekey (StarFile.nw 586-605) *)
Definition k_rekey (old new : str) (block_id : option str) (d : ddic) : ddic * outcome unit :=
  look (k_get old d) d (fun moved =>
  match dget str_eqb old (k_child d) with
  | None => (d, Raise KeyErr)
  | Some info =>
      then_ (k_del old (set_kchild (repoint old new (k_child d)) d)) (fun _ d =>
      let d := set_blocks (dset str_eqb new moved (k_blocks d)) d in
      (set_kchild (dset str_eqb new (match block_id with None => info | Some i => PC i (pc_parent info) end) (k_child d)) d, Ret tt))
  end).
(** BlockCollection.rename (StarFile.nw 607-616) *)
Definition star_rename (old new : str) (d : ddic) : ddic * outcome unit :=
  if dmem str_eqb (lower new) (k_blocks d) then (d, Raise StarErr)
  else if negb (dmem str_eqb (lower old) (k_blocks d)) then (d, Raise KeyErr)
  else k_rekey (lower old) (lower new) (match new with [] => None | _ => Some new end) d.
(** CifDic.rename (1234-1246), blockname_as_well True. *)
Definition k_rename (old new : str) (d : ddic) : ddic * outcome unit :=
  match dget str_eqb (lower old) (k_ids d) with
  | None => (d, Raise KeyErr)
  | Some b =>
      then_ (star_rename b new d) (fun _ d =>
      let ids := dset str_eqb (lower new) new (k_ids d) in
      (set_ids (if dmem str_eqb (lower old) ids then ddel str_eqb (lower old) ids else ids) d, Ret tt))
  end.
(** set_parent (StarFile.nw 461-471) *)
Definition k_parent (parent child : str) (d : ddic) : ddic * outcome unit :=
  if negb (dmem str_eqb (lower parent) (k_blocks d)) then (d, Raise KeyErr)
  else if negb (dmem str_eqb (lower child) (k_blocks d)) then (d, Raise KeyErr)
  else match dget str_eqb (lower child) (k_child d) with
       | None => (d, Raise KeyErr)
       | Some old => (set_kchild (dset str_eqb (lower child) (PC (pc_id old) (Some (lower parent))) (k_child d)) d, Ret tt)
       end.
(** BlockCollection.NewBlock (StarFile.nw 526-576) for an empty block inside
    [parent], standard 'Dic'; the returned key. *)
Definition k_add (k name : str) (parent : str) (d : ddic) : ddic :=
  let d := set_blocks (dset str_eqb k ([], true) (k_blocks d)) d in
  if dmem str_eqb (lower parent) (k_blocks d) then set_kchild (dset str_eqb k (PC name (Some (lower parent))) (k_child d)) d else d.
Definition k_new (name : str) (fix_it : bool) (parent : str) (d : ddic) : ddic * outcome str :=
  if Nat.ltb 75 (length name) then (d, Raise StarErr) else
  let name' := fix_name fix_it name in
  let k := lower name' in
  if dmem str_eqb k (k_blocks d) then
    if smem k (with_parent None (k_child d)) then
      look (fresh_key k (map fst (k_blocks d))) d (fun k' =>
      then_ (k_rekey k k' None d) (fun _ d =>
      (k_add k name' (if str_eqb (lower parent) k then k' else parent) d, Ret k)))
    else (d, Raise StarErr)
  else (k_add k name' parent d, Ret k).

(** ** The editing methods *)
(** ddlm_immediate_children (1269-1276) *)
Definition k_children (cat : str) (d : ddic) : outcome (list str) :=
  filterM (fun a => obind (k_table a d) (fun t => obind (cat_of t) (fun c => Ret (str_eqb c (lower cat))))) (k_keys d).
(** A value used as a text: concatenation (1392) raises TypeError otherwise. *)
Definition as_text (v : value) : outcome str := match v with VStr s => Ret s | _ => Raise TypeErr end.
(** create_catobj_name (1390-1392) *)
Definition catobj_name (cat obj : str) : str := u "_" ++ cat ++ u "." ++ obj.
(** self[a].get('_definition.scope','Item')=='Item' *)
Definition is_item (t : table) : bool := match tget a_scope t with None => true | o => veq_text o (u "Item") end.

(** The loop of change_category_name (1382-1387) for one child. *)
Definition move_child (newname child : str) (d : ddic) : ddic * outcome unit :=
  then_ (k_set child a_category (VStr newname) d) (fun _ d =>
  look (k_table child d) d (fun t =>
  if is_item t then
    look (obind (k_item child a_object d) as_text) d (fun obj =>
    let newid := catobj_name newname obj in
    then_ (k_set child a_def (VStr newid) d) (fun _ d =>
    k_rename child (tl newid) d))
  else (d, Ret tt))).
(** change_category_name (1371-1388) *)
Definition change_category_name (oldname newname : str) (d : ddic) : ddic * outcome unit :=
  then_ (k_flags true d) (fun _ d =>
  if negb (k_has oldname d) then (d, Raise KeyErr)
  else if k_has newname d then (d, Raise KeyErr)
  else
    look (k_children oldname d) d (fun kids =>
    then_ (k_rename oldname newname d) (fun _ d =>
    then_ (k_set newname a_object (VStr newname) d) (fun _ d =>
    then_ (k_set newname a_def (VStr newname) d) (fun _ d =>
    then_ (each (move_child newname) kids d) (fun _ d =>
    k_flags false d)))))).

(** change_category (1394-1413).  [defid] is the block that was found at the start;
    it stays the same object under its new key. *)
Definition change_category (itemname catname : str) (d : ddic) : ddic * outcome str :=
  look (k_table itemname d) d (fun t =>
  match tget a_category t with
  | None => (d, Raise KeyErr)
  | Some (VStr c) =>
      if str_eqb (lower c) (lower catname) then (d, Ret itemname)
      else if negb (k_has catname d) then (d, Ret itemname)
      else
        then_ (k_flags true d) (fun _ d =>
        look (k_item itemname a_object d) d (fun obj =>
        then_ (k_set itemname a_category (VStr catname) d) (fun _ d =>
        then_ (if is_item t then
                 look (as_text obj) d (fun o =>
                 let newid := catobj_name catname o in
                 then_ (k_set itemname a_def (VStr newid) d) (fun _ d =>
                 then_ (k_rename itemname newid d) (fun _ d => (d, Ret newid))))
               else (d, Ret itemname)) (fun newid d =>
        then_ (k_parent catname newid d) (fun _ d =>
        then_ (k_flags false d) (fun _ d => (d, Ret newid)))))))
  | Some _ => (d, Raise AttributeErr)
  end).

(** change_name (1415-1430) *)
Definition change_name (one_def newobj : str) (d : ddic) : ddic * outcome str :=
  look (k_table one_def d) d (fun t =>
  if tmem a_title t then
    then_ (k_flags true d) (fun _ d =>
    then_ (k_rename one_def newobj d) (fun _ d =>
    then_ (k_set newobj a_title (VStr newobj) d) (fun _ d =>
    then_ (k_flags false d) (fun _ d => (d, Ret newobj)))))
  else
    look (obind (k_item one_def a_category d) as_text) d (fun cat =>
    let newid := catobj_name cat newobj in
    then_ (k_flags true d) (fun _ d =>
    then_ (k_rename one_def newid d) (fun _ d =>
    then_ (k_set newid a_def (VStr newid) d) (fun _ d =>
    then_ (k_set newid a_object (VStr newobj) d) (fun _ d =>
    then_ (k_flags false d) (fun _ d => (d, Ret newid)))))))).

(** self.get_roots()[0][0] (StarFile.nw 416-418) *)
Definition first_root (d : ddic) : outcome str :=
  match with_parent None (k_child d) with k :: _ => Ret k | [] => Raise IndexErr end.
(** [a for a in self.keys() if self[a].get('_definition.class',None)=='Head'] *)
Definition heads (d : ddic) : outcome (list str) :=
  filterM (fun a => obind (k_table a d) (fun t => Ret (is_head t))) (k_keys d).
(** Setting several attributes of a definition. *)
Fixpoint set_all (key : str) (l : list (str * value)) (d : ddic) : ddic * outcome unit :=
  match l with [] => (d, Ret tt) | (a, v) :: r => then_ (k_set key a v d) (fun _ => set_all key r) end.
(** add_category (1434-1467) *)
Definition add_category (catname : str) (catparent : option str) (loop dangler : bool) (d : ddic) : ddic * outcome str :=
  if k_has catname d then (d, Raise CifErr) else
  then_ (k_flags true d) (fun _ d =>
  look (first_root d) d (fun root =>
  look (match catparent with
        | None => obind (heads d) (fun l => Ret (match l with h :: _ => h | [] => root end))
        | Some p => Ret p
        end) d (fun semantic =>
  then_ (k_new catname true root d) (fun realname d =>
  let d := set_ids (dset str_eqb (lower catname) realname (k_ids d)) d in
  then_ (k_set catname a_object (VStr catname) d) (fun _ d =>
  look (match catparent, dangler with
        | Some p, true => Ret (VStr p)
        | _, _ => k_item semantic a_object d
        end) d (fun cat =>
  then_ (set_all catname [(a_category, cat); (a_def, VStr catname); (a_scope, VStr (u "Category"));
                          (a_class, VStr (u (if loop then "Loop" else "Set"))); (a_text, VStr (u "No definition provided"))] d) (fun _ d =>
  then_ (k_flags false d) (fun _ d => (d, Ret catname))))))))).

(** itemname.split('.')[-1], and strip('_') (1474-1478) *)
Fixpoint after_dot (acc s : str) : str :=
  match s with
  | [] => rev acc
  | x :: r => if (x =? 46)%N then after_dot [] r else after_dot (x :: acc) r
  end.
Fixpoint lstrip_us (s : str) : str := match s with x :: r => if (x =? 95)%N then lstrip_us r else s | [] => [] end.
Definition strip_us (s : str) : str := rev (lstrip_us (rev (lstrip_us s))).
(** add_definition (1469-1492) *)
Definition add_definition (itemname catparent : str) (text : str) (dangler : bool) (d : ddic) : ddic * outcome str :=
  then_ (k_flags true d) (fun _ d =>
  let obj := strip_us (after_dot [] itemname) in
  look (if dangler then Ret false
        else if negb (k_has catparent d) then Ret true
        else obind (k_item catparent a_scope d) (fun v => Ret (negb (veq_text (Some v) (u "Category"))))) d (fun bad =>
  if bad then (d, Raise CifErr) else
  let fullname := u "_" ++ lower catparent ++ u "." ++ obj in
  look (first_root d) d (fun root =>
  then_ (k_new fullname false root d) (fun realname d =>
  let d := set_ids (dset str_eqb fullname realname (k_ids d)) d in
  then_ (set_all fullname [(a_def, VStr fullname); (a_object, VStr obj); (a_category, VStr catparent);
                           (a_class, VStr (u "Datum")); (a_text, VStr text)] d) (fun _ d => (d, Ret realname)))))).

(** remove_definition (1494-1502); [n] bounds the depth. *)
Fixpoint remove_definition (n : nat) (defname : str) (d : ddic) : ddic * outcome unit :=
  match n with
  | O => (d, Raise OutOfFuel)
  | Datatypes.S n' =>
      if negb (k_has defname d) then (d, Ret tt) else
      look (k_table defname d) d (fun t =>
      then_ (if is_category t then
               look (k_children defname d) d (fun kids =>
               then_ (each (remove_definition n') kids d) (fun _ d =>
               look (k_item defname a_def d) d (fun v =>
               match v with VStr _ => (d, Ret tt) | _ => (d, Raise AttributeErr) end)))
             else (d, Ret tt)) (fun _ d => k_del defname d))
  end.

(** get_name_by_cat_obj (1523-1534), give_default False. *)
Definition strip_one (cat : str) : outcome str :=
  match cat with [] => Raise IndexErr | x :: r => Ret (if (x =? 95)%N then r else cat) end.
Definition name_by_cat_obj (cat obj : str) (d : ddic) : outcome str :=
  obind (strip_one cat) (fun c =>
  match find (fun e => str_eqb (fst (fst e)) (lower c) && str_eqb (snd (fst e)) (lower obj)) (k_objs d) with
  | Some e => Ret (snd e)
  | None => Raise KeyErr
  end).
