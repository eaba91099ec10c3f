(** Model of ValidCifBlock (src/CifFile_module.nw 3517-3745), a block that checks
    what it is given against a dictionary, and of the deprecated AddCifItem of
    CifBlock (290-311).

    The dictionary is the record of its installed checks, as in ValidateModel.v;
    the checks over the whole block take the block and the provisional items.
    Simplification: the whole block is read once before the checks, the code reads
    what each check asks for. *)
From Coq Require Import String Ascii List NArith ZArith Bool.
From Verif Require Import PyBase StarBlockModel ValidateModel.
Import ListNotations.

Record vdic := mkV {
  v_in : str -> bool;                                                  (* item_name in self.fulldic *)
  v_item : list (str * (str -> value -> outcome result));
  v_global : list (str * (str -> value -> table -> table -> outcome result));   (* whole block, provisional items *)
  v_loop : list (str * (list str -> outcome result));
  v_block : list (str * (table -> outcome result))
}.

(** The items of the block as the checks see them. *)
Fixpoint read_all (ks : list str) (b : block) : outcome table :=
  match ks with
  | [] => Ret []
  | k :: r => obind (get_item k b) (fun v => obind (read_all r b) (fun t => Ret ((k, v) :: t)))
  end.
Definition view (b : block) : outcome table := read_all (b_keys b) b.

(** single_item_check (3605-3615): the names of the failing checks. *)
Definition single_item_check (d : vdic) (name : str) (v : value) : outcome (list str) :=
  if negb (v_in d name) then Ret []
  else obind (run_all (fun f => f name v) (v_item d)) (fun l => Ret (map fst (filter failed l))).
(** global_item_check (3629-3639) *)
Definition global_item_check (d : vdic) (name : str) (v : value) (prov : table) (b : block) : outcome (list str) :=
  if negb (v_in d name) then Ret []
  else obind (view b) (fun t => obind (run_all (fun f => f name v t prov) (v_global d)) (fun l => Ret (map fst (filter failed l)))).
(** loop_item_check (3617-3627).  The result is looked up under the first name of
    the dictionary, also when there is none. *)
Definition loop_item_check (d : vdic) (names : list str) : outcome (list str) :=
  match filter (v_in d) names with
  | [] => Raise IndexErr
  | ns => obind (run_all (fun f => f ns) (v_loop d)) (fun l => Ret (map fst (filter failed l)))
  end.
(** report_if_invalid (3691-3696) with all of its arguments. *)
Definition report_if_invalid (bad : list str) : outcome unit := match bad with [] => Ret tt | _ => Raise CifErr end.
(** The two checks before an item is added (3660-3663, 3684-3687). *)
Definition item_checks (d : vdic) (key : str) (v : value) (b : block) : outcome unit :=
  obind (single_item_check d key v) (fun bad => obind (report_if_invalid bad) (fun _ =>
  obind (global_item_check d key v [] b) (fun bad2 => report_if_invalid bad2))).

(** AddItem (3682-3688) *)
Definition valid_add (d : vdic) (key : str) (v : value) (precheck : bool) (b : block) : block * outcome unit :=
  match item_checks d key v b with
  | Raise e => (b, Raise e)
  | Ret _ => add_item key v precheck b
  end.
(** RemoveItem is inherited: remove_item.  CreateLoop is inherited too, but turning
    single values into lists (src/StarFile.nw 2047-2048) goes through the AddItem
    above; CifBlock.__setitem__ (248-254) with compat_mode off, which does not test
    for the key 'saves'. *)
Fixpoint valid_listify (d : vdic) (names : list str) (b : block) : block * outcome unit :=
  match names with
  | [] => (b, Ret tt)
  | n :: r =>
      match get_item n b with
      | Raise e => (b, Raise e)
      | Ret v =>
          match valid_add d n (VList [v]) false b with
          | (b', Raise e) => (b', Raise e)
          | (b', Ret _) => valid_listify d r b'
          end
      end
  end.
Definition valid_length_check (d : vdic) (names : list str) (b : block) : block * outcome unit :=
  match get_items names b with
  | Raise e => (b, Raise e)
  | Ret vs =>
      let listed := filter is_plain_list vs in
      if Nat.eqb (length listed) (length names) then
        if all_same_len vs then (b, Ret tt) else (b, Raise ValueErr)
      else if negb (Nat.eqb (length listed) 0) then (b, Raise ValueErr)
      else valid_listify d names b
  end.
Definition valid_create_loop (d : vdic) (names : list str) (order : Z) (b : block) : block * outcome unit :=
  match valid_length_check d names b with
  | (b1, Raise e) => (b1, Raise e)
  | (b1, Ret _) => create_loop names order false b1
  end.

(** The first column of the loop of [key]: what iterating over a LoopBlock gives,
    [a[0]] of each packet (src/StarFile.nw 1272-1279).  Simplification: columns of
    one length. *)
Definition first_column (key : str) (b : block) : outcome (list value) :=
  obind (get_loop_names key b) (fun names =>
  match names with
  | [] => Ret []
  | n :: _ => obind (get_item n b) (fun v => match v with VList l | VSL l => Ret l | _ => Raise TypeErr end)
  end).
Fixpoint as_names (key : str) (l : list value) : list str :=
  match l with
  | [] => []
  | VStr s :: r => if str_eqb s key then as_names key r else s :: as_names key r
  | _ :: r => as_names key r              (* never in a dictionary *)
  end.
(** __delitem__ (3698-3711).  GetLoop raises KeyError for an item outside loops and
    only TypeError is caught; report_if_invalid is called without its third
    argument; run_remove_global_validation does not exist. *)
Definition valid_del (d : vdic) (key : str) (b : block) : block * outcome unit :=
  if has_key key b then
    match find_loop key b with
    | None => (b, Raise KeyErr)
    | Some _ =>
        match obind (first_column key b) (fun col => loop_item_check d (as_names key col)) with
        | Raise e => (b, Raise e)
        | Ret _ => (b, Raise TypeErr)
        end
    end
  else remove_item key b.
(** AddToLoop (3722-3745): the same missing argument; with nothing to add the
    lookup of 'loops' among the items fails. *)
Definition valid_add_to_loop (d : vdic) (dataname : str) (kvs : list (str * value)) (b : block) : block * outcome unit :=
  match kvs with
  | (n, v) :: _ => match single_item_check d n v with Raise e => (b, Raise e) | Ret _ => (b, Raise TypeErr) end
  | [] => (b, Raise KeyErr)
  end.

(** run_data_checks (3558-3582) and the constructor (3534-3550) with a dictionary
    and the data of another block. *)
Definition as_checks (d : vdic) : checks :=
  mkChecks (v_item d) (map (fun nf => (fst nf, fun n v t => snd nf n v t [])) (v_global d)) (v_loop d) (v_block d).
Definition block_checks (d : vdic) (b : block) : outcome (bool * report) :=
  obind (view b) (fun t => run_data_checks (as_checks d) t (map snd (b_loops b))).
Definition valid_init (d : vdic) (b : block) : outcome block :=
  obind (block_checks d b) (fun r => if fst r then Ret b else Raise CifErr).

(** CifBlock.AddCifItem (290-306) with a single name: list(data[1]) is added, and a
    loop is made if a plain list was given. *)
Definition py_list (v : value) : outcome value :=
  match v with
  | VStr s => Ret (VList (map (fun c => VStr [c]) s))
  | VList l | VSL l => Ret (VList l)
  | VDict m => Ret (VList (map (fun kv => VStr (fst kv)) m))
  | VNum _ | VNone => Raise TypeErr
  end.
Definition add_cif_item (add : str -> value -> block -> block * outcome unit) (mk : list str -> block -> block * outcome unit)
  (name : str) (v : value) (b : block) : block * outcome unit :=
  match py_list v with
  | Raise e => (b, Raise e)
  | Ret l =>
      match add name l b with
      | (b', Raise e) => (b', Raise e)
      | (b', Ret _) => if is_plain_list v then mk [name] b' else (b', Ret tt)
      end
  end.
(** ... of a CifBlock, and ValidCifBlock.AddCifItem (3658-3663, 3680). *)
Definition cif_add_cif_item (name : str) (v : value) (b : block) : block * outcome unit :=
  add_cif_item (fun n x => add_item n x false) (fun ns => create_loop ns (-1) true) name v b.
Definition valid_add_cif_item (d : vdic) (name : str) (v : value) (b : block) : block * outcome unit :=
  match item_checks d name v b with
  | Raise e => (b, Raise e)
  | Ret _ => add_cif_item (fun n x => valid_add d n x false) (fun ns => valid_create_loop d ns (-1)) name v b
  end.
(** CifBlock.AddCifItem with a tuple of names: names = data[0][0], columns =
    data[1][0] (302-306). *)
Fixpoint add_pairs (add : str -> value -> block -> block * outcome unit) (kvs : list (str * value)) (b : block) : block * outcome unit :=
  match kvs with
  | [] => (b, Ret tt)
  | (k, v) :: r => match add k v b with (b', Raise e) => (b', Raise e) | (b', Ret _) => add_pairs add r b' end
  end.
Fixpoint py_lists (l : list value) : outcome (list value) :=
  match l with [] => Ret [] | v :: r => obind (py_list v) (fun x => obind (py_lists r) (fun xs => Ret (x :: xs))) end.
Definition cif_add_loop (names : list str) (cols : list value) (b : block) : block * outcome unit :=
  match py_lists cols with
  | Raise e => (b, Raise e)
  | Ret ls =>
      match add_pairs (fun k v => add_item k v false) (combine names ls) b with
      | (b', Raise e) => (b', Raise e)
      | (b', Ret _) => create_loop names (-1) true b'
      end
  end.

(** Editing a ValidCifBlock. *)
Inductive vop :=
| VSet (key : str) (v : value)
| VRemove (key : str)
| VDel (key : str)
| VLoop (names : list str) (order : Z)
| VCifItem (key : str) (v : value)
| VToLoop (name : str) (kvs : list (str * value)).
Definition run_vop (d : vdic) (o : vop) (b : block) : block * outcome unit :=
  match o with
  | VSet k v => valid_add d k v false b
  | VRemove k => remove_item k b
  | VDel k => valid_del d k b
  | VLoop ns ord => valid_create_loop d ns ord b
  | VCifItem k v => valid_add_cif_item d k v b
  | VToLoop n kvs => valid_add_to_loop d n kvs b
  end.
Definition run_vops (d : vdic) (os : list vop) (b : block) : block := fold_left (fun s o => fst (run_vop d o s)) os b.
