(** Model of the validation checks of CifDic (src/CifFile_module.nw 1978-2667) and of
    run_data_checks (4060-4077).

    A definition block, a data block and the dictionaries of provisional and
    global items are tables from lower-case names to values: the checks only read
    them ([as_table] gives the table of a block).  Not modelled: the optimize flag
    (False, the default set in 1941), the texts printed on the way, imports into
    definitions (see ImportModel.v).  Names found in definitions are texts. *)
From Coq Require Import String Ascii List NArith ZArith QArith Bool.
From Verif Require Import PyBase StarBlockModel LoopModel RegexModel NumberModel.
Import ListNotations.

Definition table := list (str * value).
(** t[name], t.get(name) and name in t, ignoring case. *)
Definition tget (name : str) (t : table) : option value := dget str_eqb (lower name) t.
Definition tmem (name : str) (t : table) : bool := match tget name t with Some _ => true | None => false end.
(** The readable items of a block. *)
Definition as_table (b : block) : table :=
  flat_map (fun k => match get_item k b with Ret v => [(k, v)] | Raise _ => [] end) (b_keys b).

(** The dictionary: definitions by lower-case id, and the attribute names that
    depend on the dictionary language (600-650). *)
Record cifdic := mkDic {
  d_defs : list (str * table);
  d_types : list (str * re);              (* self.typedic *)
  d_type_spec : str; d_primitive : str; d_esd_spec : str; d_enum_spec : str;
  d_must_loop : str; d_parent_spec : str; d_child_spec : str; d_cat_spec : str;
  d_must_exist : str; d_dep_spec : str; d_related_func : str; d_related_item : str;
  d_key_spec : str; d_list_ref : str;
  d_lookup : list (str * str)             (* self.parent_lookup, empty unless DDLm (1542-1548) *)
}.
(** self[name] *)
Definition dic_get (d : cifdic) (name : str) : outcome table :=
  match dget str_eqb (lower name) (d_defs d) with Some t => Ret t | None => Raise KeyErr end.

(** What a check returns: {"result":None}, {"result":True}, or False with the
    offending values and names. *)
Inductive result :=
| RNone
| RTrue
| RFalse (bad_values : list value) (bad_items : list str).

(** [v in l] *)
Definition vmem (v : value) (l : list value) : bool := existsb (py_eq v) l.
Definition dot : value := VStr [46%N].
Definition query : value := VStr [63%N].

(** listify followed by iteration (4284-4286). *)
Definition listify (v : value) : outcome (list value) :=
  match v with
  | VStr s => Ret [VStr s]
  | VList l | VSL l => Ret l
  | VDict d => Ret (map (fun kv => VStr (fst kv)) d)
  | VNum _ | VNone => Raise TypeErr
  end.
(** Names held in a definition, one or several; for listify and for
    isinstance(x,unicode) tests. *)
Definition texts (l : list value) : outcome (list str) :=
  fold_right (fun v r => match v with VStr s => obind r (fun t => Ret (s :: t)) | _ => Raise TypeErr end) (Ret []) l.
Definition names_of (v : value) : outcome (list str) := obind (listify v) texts.
Fixpoint filterM {A} (f : A -> outcome bool) (l : list A) : outcome (list A) :=
  match l with
  | [] => Ret []
  | x :: l' => obind (f x) (fun b => obind (filterM f l') (fun r => Ret (if b then x :: r else r)))
  end.
Definition decide (bad : list value) : result := match bad with [] => RTrue | _ => RFalse bad [] end.

(** ** Single items *)

(** validate_item_type (1978-1995) *)
Definition whole_match (r : re) (s : str) : bool :=
  match re_match r s with Some (m, _) => str_eqb m s | None => str_eqb [] s end.
Definition validate_item_type (d : cifdic) (name : str) (v : value) : outcome result :=
  obind (dic_get d name) (fun def =>
  match tget (d_type_spec d) def with
  | None => Ret RTrue
  | Some (VStr code) =>
      match dget str_eqb code (d_types d) with
      | None => Raise KeyErr
      | Some r =>
          obind (listify v) (fun vs =>
          obind (filterM (fun a => match a with VStr s => Ret (negb (whole_match r s)) | _ => Raise TypeErr end)
                   (filter (fun a => negb (py_eq a dot) && negb (py_eq a query)) vs)) (fun bad =>
          Ret (decide bad)))
      end
  | Some _ => Raise TypeErr
  end).

(** validate_item_esd (2036-2046) *)
Definition number_of (a : value) : outcome (option Q * option Q) :=
  match a with VStr s => get_number s | _ => Raise TypeErr end.
Definition veq_text (o : option value) (t : str) : bool := match o with Some (VStr s) => str_eqb s t | _ => false end.
Definition validate_item_esd (d : cifdic) (name : str) (v : value) : outcome result :=
  obind (dic_get d name) (fun def =>
  if negb (veq_text (tget (d_primitive d) def) (u "numb")) then Ret RNone
  else if veq_text (tget (d_esd_spec d) def) (u "esd") then Ret RTrue
  else obind (listify v) (fun vs =>
       obind (filterM (fun a => obind (number_of a) (fun ne => Ret (match snd ne with Some _ => true | None => false end))) vs) (fun bad =>
       Ret (decide bad)))).

(** validate_enum_range (2069-2097).  Bounds are a point, kept as a text, or
    numbers. *)
Definition bound := option Q.
Definition makefloat (a : value) : outcome bound :=
  match a with
  | VStr s => if str_eqb s [46%N] then Ret None else obind (py_float s) (fun q => Ret (Some q))
  | VNum s => obind (py_float s) (fun q => Ret (Some q))
  | _ => Raise TypeErr
  end.
Fixpoint bounds (l : list value) : outcome (list bound) :=
  match l with [] => Ret [] | a :: r => obind (makefloat a) (fun b => obind (bounds r) (fun bs => Ret (b :: bs))) end.
(** map(makefloat, x): a single text is taken character by character. *)
Definition iterate (v : value) : outcome (list value) :=
  match v with
  | VStr s => Ret (map (fun c => VStr [c]) s)
  | VList l | VSL l => Ret l
  | VDict d => Ret (map (fun kv => VStr (fst kv)) d)
  | VNum _ | VNone => Raise TypeErr
  end.
Definition Qltb (a b : Q) : bool := negb (Qle_bool b a).
Fixpoint in_ranges (ranges : list (bound * bound)) (iv : Q) : bool :=
  match ranges with
  | [] => false
  | (lower, upper) :: r =>
      let lo := match lower with Some q => q | None => (iv - 1)%Q end in
      let up := match upper with Some q => q | None => (iv + 1)%Q end in
      if Qltb lo iv && Qltb iv up then true
      else if Qeq_bool up lo && Qeq_bool iv up then true
      else in_ranges r iv
  end.
Definition map_check (ranges : list (bound * bound)) (a : value) : outcome bool :=
  if py_eq a query || py_eq a dot then Ret true
  else obind (number_of a) (fun ne => Ret (match fst ne with None => false | Some iv => in_ranges ranges iv end)).
Definition range_min : str := u "_item_range.minimum".
Definition range_max : str := u "_item_range.maximum".
Definition validate_enum_range (d : cifdic) (name : str) (v : value) : outcome result :=
  obind (dic_get d name) (fun def =>
  if negb (tmem range_min def) && negb (tmem range_max def) then Ret RNone
  else
    let dflt o := match o with Some x => x | None => VList [dot] end in
    obind (iterate (dflt (tget range_max def))) (fun maxs => obind (iterate (dflt (tget range_min def))) (fun mins =>
    obind (bounds mins) (fun lo => obind (bounds maxs) (fun up =>
    obind (listify v) (fun vs =>
    obind (filterM (fun a => obind (map_check (combine lo up) a) (fun b => Ret (negb b))) vs) (fun bad =>
    Ret (decide bad)))))))).

(** validate_item_enum (2105-2117): a single text has no append. *)
Definition validate_item_enum (d : cifdic) (name : str) (v : value) : outcome result :=
  match dget str_eqb (lower name) (d_defs d) with
  | None => Ret RNone
  | Some def =>
      match tget (d_enum_spec d) def with
      | None => Ret RNone
      | Some (VList l) | Some (VSL l) =>
          obind (listify v) (fun vs => Ret (decide (filter (fun a => negb (vmem a (l ++ [dot; query]))) vs)))
      | Some (VStr _) => Raise AttributeErr
      | Some _ => Raise TypeErr
      end
  end.

(** validate_looping (2129-2138) *)
Definition is_text (v : value) : bool := match v with VStr _ => true | _ => false end.
Definition validate_looping (d : cifdic) (name : str) (v : value) : outcome result :=
  match dget str_eqb (lower name) (d_defs d) with
  | None => Ret RNone
  | Some def =>
      match tget (d_must_loop d) def with
      | None => Ret RNone
      | Some m => Ret (if py_eq m (VStr (u "yes")) && is_text v then RFalse [] []
                       else if py_eq m (VStr (u "no")) && negb (is_text v) then RFalse [] [] else RTrue)
      end
  end.

(** ** Relations between items *)

(** get_alternates (2290-2309) *)
Definition get_alternates (d : cifdic) (name : str) (exclusive : bool) : outcome (list str) :=
  obind (dic_get d name) (fun def =>
  obind (match tget (d_related_func d) def with
         | None => Ret []
         | Some funcs =>
             match tget (d_related_item d) def with
             | None => Raise TypeErr
             | Some items =>
                 obind (match items with
                        | VStr s => Ret ([items], [funcs])
                        | _ => obind (iterate items) (fun i => obind (iterate funcs) (fun f => Ret (i, f)))
                        end) (fun p =>
                 texts (map fst (filter (fun xf => veq_text (Some (snd xf)) (if exclusive then u "alternate_exclusive" else u "alternate")
                                                 || veq_text (Some (snd xf)) (u "replace")) (combine (fst p) (snd p)))))
             end
         end) (fun alts =>
  obind (match tget (u "_item_aliases.alias_name") def with None => Ret [] | Some x => names_of x end) (fun al =>
  Ret (alts ++ al)))).
Definition smem (x : str) (l : list str) : bool := mem str_eqb x l.
Definition tkeys (t : table) : list str := dkeys t.

(** validate_exclusion (2332-2340) *)
Definition validate_exclusion (d : cifdic) (name : str) (whole prov : table) : outcome result :=
  obind (get_alternates d name true) (fun alts =>
  let bad := filter (fun a => smem a (map lower (tkeys whole) ++ map lower (tkeys prov))) (map lower alts) in
  Ret (match bad with [] => RTrue | _ => RFalse [] bad end)).

(** check_parent_child (2453-2459) *)
Definition check_parent_child (parents children : list value) : list value :=
  filter (fun a => negb (vmem a (parents ++ [dot; query]))) children.
(** bool(x), x possibly None *)
Definition truthy (o : option value) : bool :=
  match o with
  | None | Some VNone | Some (VStr []) | Some (VList []) | Some (VSL []) | Some (VDict []) => false
  | Some (VNum s) => negb (str_eqb s [48%N])          (* simplification: the number printed 0 *)
  | Some _ => true
  end.
(** [x] if a text, otherwise the list x itself (copied or extended). *)
Definition value_list (o : option value) : outcome (list value) :=
  match o with
  | Some (VStr s) => Ret [VStr s]
  | Some (VList l) | Some (VSL l) => Ret l
  | _ => Raise TypeErr
  end.
Definition first_of (a b : option value) : option value := match a with Some _ => a | None => b end.
(** validate_parent (2368-2413) *)
Definition validate_parent (d : cifdic) (name : str) (v : value) (whole prov globals : table) : outcome result :=
  obind (dic_get d name) (fun def =>
  let spec := tget (d_parent_spec d) def in
  if negb (truthy spec) then Ret RNone
  else obind (match spec with
              | Some (VList (VStr p :: _)) | Some (VSL (VStr p :: _)) | Some (VStr p) => Ret p
              | _ => Raise TypeErr
              end) (fun parent =>
  obind (value_list (Some v)) (fun children =>
  let here := tget parent globals in
  let found := if truthy here then here else first_of (tget parent prov) (tget parent whole) in
  let against (p : str) (o : option value) :=
    obind (value_list o) (fun pv =>
    match check_parent_child pv children with [] => Ret RTrue | bad => Ret (RFalse bad [p]) end) in
  if truthy found then against parent found
  else obind (get_alternates d parent false) (fun alts =>
       match filter (fun a => smem a (tkeys whole ++ tkeys prov ++ tkeys globals)) alts with
       | [] => if existsb (fun a => negb (py_eq a dot) && negb (py_eq a query)) children
               then Ret (RFalse [] [parent]) else Ret RNone
       | alt :: _ =>
           let o := first_of (tget alt prov) (tget alt whole) in
           against alt (if truthy o then o else tget alt globals)
       end)))).

(** validate_child (2415-2451) *)
Fixpoint alternates_of (d : cifdic) (l : list str) : outcome (list str) :=
  match l with [] => Ret [] | a :: r => obind (get_alternates d a false) (fun x => obind (alternates_of d r) (fun y => Ret (x ++ y))) end.
Fixpoint check_children (parents : list value) (whole prov : table) (names : list str) : outcome result :=
  match names with
  | [] => Ret RTrue
  | c :: r =>
      match first_of (tget c prov) (tget c whole) with
      | None => check_children parents whole prov r
      | Some cv =>
          obind (value_list (Some cv)) (fun children =>
          match check_parent_child parents children with
          | [] => check_children parents whole prov r
          | bad => Ret (RFalse bad [c])
          end)
      end
  end.
Definition validate_child (d : cifdic) (name : str) (v : value) (whole prov globals : table) : outcome result :=
  match dget str_eqb (lower name) (d_defs d) with
  | None => Ret RNone
  | Some def =>
      match tget (d_child_spec d) def with
      | None => Ret RNone
      | Some spec =>
          if tmem name globals then Ret RNone
          else obind (names_of spec) (fun cs =>
               obind (value_list (Some v)) (fun parents =>
               obind (alternates_of d cs) (fun alts =>
               check_children parents whole prov (cs ++ alts))))
      end
  end.

(** validate_dependents (2479-2501) *)
Fixpoint no_alternate (d : cifdic) (present : list str) (l : list str) : outcome (list str) :=
  match l with
  | [] => Ret []
  | a :: r => obind (get_alternates d a false) (fun alts => obind (no_alternate d present r) (fun rest =>
      Ret (match filter (fun x => smem x present) alts with [] => a :: rest | _ => rest end)))
  end.
Definition validate_dependents (d : cifdic) (name : str) (whole prov globals : table) : outcome result :=
  match dget str_eqb (lower name) (d_defs d) with
  | None => Ret RNone
  | Some def =>
      match tget (d_dep_spec d) def with
      | None => Ret RNone
      | Some spec =>
          obind (names_of spec) (fun deps =>
          let present := tkeys whole ++ tkeys prov ++ tkeys globals in
          obind (no_alternate d present (filter (fun a => negb (smem a present)) deps)) (fun bad =>
          Ret (match bad with [] => RTrue | _ => RFalse [] bad end)))
      end
  end.

(** validate_uniqueness (2521-2568) *)
(** x[i]; a text gives its character. *)
Definition vindex (v : value) (i : nat) : outcome value :=
  match v with
  | VStr s => match nth_error s i with Some c => Ret (VStr [c]) | None => Raise IndexErr end
  | VList l | VSL l => match nth_error l i with Some x => Ret x | None => Raise IndexErr end
  | _ => Raise TypeErr
  end.
(** " ".join([this_entry, x]) over the other key items *)
Fixpoint join_row (entry : str) (others : list value) (i : nat) : outcome str :=
  match others with
  | [] => Ret entry
  | o :: r => obind (vindex o i) (fun x => match x with VStr s => join_row (entry ++ 32%N :: s) r i | _ => Raise TypeErr end)
  end.
Definition row_entry (v : value) (others : list value) (i : nat) : outcome value :=
  match others with
  | [] => Ret v
  | _ => match v with VStr s => obind (join_row s others i) (fun t => Ret (VStr t)) | _ => Raise TypeErr end
  end.
Fixpoint check_rows (vs : list value) (others : list value) (i : nat) (seen : list value) : outcome result :=
  match vs with
  | [] => Ret RTrue
  | v :: r =>
      obind (row_entry v others i) (fun e =>
      if vmem e seen then Ret (RFalse [e] []) else check_rows r others (Datatypes.S i) (seen ++ [e]))
  end.
(** The values of the other key items (2546-2556). *)
Fixpoint other_data (d : cifdic) (name : str) (n : nat) (whole prov : table) (names : list str) : outcome (list value + str) :=
  match names with
  | [] => Ret (inl [])
  | o :: r =>
      obind (match first_of (tget o prov) (tget o whole) with
             | Some v => Ret (inl v)
             | None => obind (dic_get d o) (fun def =>
                 if veq_text (tget (d_must_exist d) def) (u "implicit") then Ret (inl (VList (repeat (VStr name) n)))
                 else Ret (inr o))
             end) (fun x =>
      match x with
      | inr o => Ret (inr o)
      | inl v => obind (other_data d name n whole prov r) (fun y => Ret (match y with inl l => inl (v :: l) | inr o => inr o end))
      end)
  end.
Definition validate_uniqueness (d : cifdic) (name : str) (v : value) (whole prov : table) : outcome result :=
  obind (dic_get d name) (fun def =>
  match tget (d_cat_spec d) def with
  | None => Ret RNone
  | Some (VStr category) =>
      obind (dic_get d category) (fun cat =>
      obind (match tget (u "_category_key.name") cat with None => Ret [] | Some x => names_of x end) (fun keys =>
      if negb (smem name keys) then Ret RNone
      else match v with
           | VStr _ => Ret RNone
           | VList vs | VSL vs =>
               obind (other_data d name (length vs) whole prov (remove1 str_eqb name keys)) (fun o =>
               match o with
               | inr missing => Ret (RFalse [] [missing])
               | inl others => check_rows vs others 0 []
               end)
           | _ => Raise TypeErr
           end))
  | Some _ => Raise AttributeErr
  end).

(** ** Loops *)

(** get_final_cats (2173-2182) *)
Fixpoint categories_of (d : cifdic) (names : list str) : outcome (list str) :=
  match names with
  | [] => Ret []
  | a :: r =>
      match dget str_eqb (lower a) (d_defs d) with
      | None => Raise CifErr
      | Some def =>
          match tget (d_cat_spec d) def with
          | None => Raise CifErr
          | Some (VStr c) => obind (categories_of d r) (fun cs => Ret (lower c :: cs))
          | Some _ => Raise AttributeErr
          end
      end
  end.
Definition get_final_cats (d : cifdic) (names : list str) : outcome (list str) :=
  obind (categories_of d names) (fun cs =>
  Ret (flat_map (fun c => match dget str_eqb c (d_lookup d) with Some p => [p] | None => [] end) cs)).
(** validate_loop_membership (2166-2171) *)
Definition validate_loop_membership (d : cifdic) (names : list str) : outcome result :=
  obind (get_final_cats d names) (fun cs =>
  match cs with
  | [] => Ret RTrue
  | c :: _ => Ret (match filter (fun a => negb (str_eqb a c)) cs with [] => RTrue | bad => RFalse [] bad end)
  end).
(** validate_looping_ddlm (2140-2147) *)
Definition validate_looping_ddlm (d : cifdic) (names : list str) : outcome result :=
  obind (get_final_cats d names) (fun cs =>
  if (length cs <? length names)%nat then
    obind (categories_of d names) (fun cats =>
    Ret (RFalse [] (map fst (filter (fun nc => negb (dmem str_eqb (snd nc) (d_lookup d))) (combine names cats)))))
  else Ret RTrue).
(** validate_loop_key (2192-2212): a single key name is taken character by
    character. *)
Fixpoint key_present (d : cifdic) (names : list str) (keys : list str) : outcome (option str) :=
  match keys with
  | [] => Ret None
  | k :: r =>
      if smem k names then key_present d names r
      else obind (dic_get d k) (fun def =>
           if veq_text (tget (d_must_exist d) def) (u "implicit") then key_present d names r
           else obind (get_alternates d k false) (fun alts =>
                match alts with
                | [] => Ret (Some k)
                | _ => (* each alternate name is again taken character by character *)
                       if forallb (fun a => existsb (fun c => smem [c] names) a) alts
                       then key_present d names r else Ret (Some k)
                end))
  end.
Definition validate_loop_key (d : cifdic) (names : list str) : outcome result :=
  match names with
  | [] => Raise IndexErr
  | n :: _ =>
      obind (dic_get d n) (fun def =>
      match tget (d_cat_spec d) def with
      | None => Raise KeyErr
      | Some (VStr c) =>
          obind (dic_get d c) (fun cat =>
          obind (match tget (d_key_spec d) cat with None => Ret [] | Some x => iterate x end) (fun ks =>
          obind (texts ks) (fun keys =>
          obind (key_present d names keys) (fun o =>
          Ret (match o with None => RTrue | Some k => RFalse [] [k] end)))))
      | Some _ => Raise AttributeErr
      end)
  end.

(** ** The whole run *)

(** The installed checks (1897-1940): a name and a function each. *)
Record checks := mkChecks {
  k_item : list (str * (str -> value -> outcome result));
  k_global : list (str * (str -> value -> table -> outcome result));
  k_loop : list (str * (list str -> outcome result));
  k_block : list (str * (table -> outcome result))
}.
Definition report := list (str * list (str * result)).
(** One entry (f.__name__, f(...)) after the other (2649-2666). *)
Fixpoint run_all {F} (call : F -> outcome result) (fs : list (str * F)) : outcome (list (str * result)) :=
  match fs with
  | [] => Ret []
  | (n, f) :: r => obind (call f) (fun x => obind (run_all call r) (fun xs => Ret ((n, x) :: xs)))
  end.
(** update_value (4263-4268) with a dictionary of one key. *)
Definition update_value (base : report) (k : str) (new : list (str * result)) : report :=
  match dget str_eqb k base with
  | Some old => dset str_eqb k (old ++ new) base
  | None => base ++ [(k, new)]
  end.
(** 4062-4064 *)
Fixpoint run_items (ks : checks) (t : table) (items : table) (acc : report) : outcome report :=
  match items with
  | [] => Ret acc
  | (k, v) :: r =>
      obind (run_all (fun f => f k v) (k_item ks)) (fun a =>
      obind (run_all (fun f => f k v t) (k_global ks)) (fun g =>
      run_items ks t r (update_value (update_value acc k a) k g)))
  end.
(** 4065-4066 *)
Fixpoint run_loops (ks : checks) (loops : list (list str)) (acc : report) : outcome report :=
  match loops with
  | [] => Ret acc
  | cols :: r =>
      match cols with
      | [] => Raise IndexErr                     (* loop_names[0] *)
      | k :: _ => obind (run_all (fun f => f cols) (k_loop ks)) (fun a => run_loops ks r (update_value acc k a))
      end
  end.
Definition failed (x : str * result) : bool := match snd x with RFalse _ _ => true | _ => false end.
(** 4069-4072: only failures are kept, and only keys that have some. *)
Definition prune (rep : report) : report :=
  flat_map (fun kr => match filter failed (snd kr) with [] => [] | l => [(fst kr, l)] end) rep.
Definition run_data_checks (ks : checks) (t : table) (loops : list (list str)) : outcome (bool * report) :=
  obind (run_items ks t t []) (fun r1 =>
  obind (run_loops ks loops r1) (fun r2 =>
  obind (run_all (fun f => f t) (k_block ks)) (fun b =>
  let baddies := prune (update_value r2 (u "whole_block") b) in
  Ret (match baddies with [] => true | _ => false end, baddies)))).
