(** Model of reading an item of a data block that has a DDLm dictionary: __getitem__
    and has_key_or_alias of StarBlock (src/StarFile.nw 1532-1590, 1620-1628), derive_item
    with its parts (src/CifFile_module.nw 2903-3050, 3062-3082, 3098-3125, 3305-3350),
    construct_category, push_from_pullback and duplicate_datanames (3134-3282),
    change_type (3396-3403), and create_alias_table (1035-1039).

    A method is a program that may ask for items, go on with what it gets, and return a
    value; python's None is VNone.  What makes the methods (DrelModel.v) and what runs
    inside them between two accesses to the block is arbitrary.

    Simplifications: the recursion watch (RecursionModel.v) is the stack of the names
    being derived (C47_stack_restored); packets are not asked for by key; the conversion of one value to the type of
    its definition is a parameter (it is in TypeModel.v, NumberModel.v); numpy is left
    out; texts only are looked at in lists of aliases; a definition is looked up by its
    id only; AddLoopName sees stored values, unconverted, which have the same lengths (a
    derived column of question marks only would be derived again). *)
From Coq Require Import String Ascii List NArith ZArith Bool DecimalString.
From Verif Require Import PyBase StarBlockModel LoopModel ValidateModel TreeModel.
Import ListNotations.

Inductive dexc :=
| XPy (e : exc)
| XUnbound                      (* UnboundLocalError *)
| XRecursion                    (* CifRecursionError *)
| XDerivation                   (* StarDerivationError *)
| XFailure                      (* StarDerivationFailure *)
| XAssert                       (* AssertionError *)
| XFuel.
Inductive dres (A : Type) := Ok (a : A) | Err (x : dexc).
Arguments Ok {A} a.
Arguments Err {A} x.
(** Statements that may change the block. *)
Definition act (A : Type) := block -> block * dres A.
Definition ret {A} (a : A) : act A := fun b => (b, Ok a).
Definition err {A} (x : dexc) : act A := fun b => (b, Err x).
Definition bind {A B} (m : act A) (f : A -> act B) : act B :=
  fun b => match m b with (b1, Ok a) => f a b1 | (b1, Err x) => (b1, Err x) end.
Definition lift {A} (o : outcome A) : act A := fun b => (b, match o with Ret a => Ok a | Raise e => Err (XPy e) end).
Definition change (f : block -> block * outcome unit) : act unit :=
  fun b => match f b with (b1, Ret _) => (b1, Ok tt) | (b1, Raise e) => (b1, Err (XPy e)) end.
Definition look {A} (f : block -> A) : act A := fun b => (b, Ok (f b)).

(** Methods.  [Ask]: ciffile[name]; [May]: ciffile.get(name,None) in a try for KeyError
    (src/drel/py_from_ast.nw 43, 154-157); [Has]: ciffile.has_key_or_alias(name). *)
Inductive prog :=
| Done (v : value)
| Stop (e : exc)
| Ask (name : str) (next : value -> prog)
| May (name : str) (next : option value -> prog)
| Has (name : str) (next : bool -> prog).

Record ddict := mkDD {
  dd_defs : defs;                               (* definitions by lower-case id *)
  dd_methods : str -> list prog;                (* _method.py_expression, by lower-case id *)
  dd_conv : str -> value -> outcome value;      (* convert_type(self[id])(value), by lower-case id *)
  dd_object : str -> str -> outcome str;        (* self.cat_obj_lookup_table[(category,object)][0] (KeyModel.v) *)
  dd_set : list str -> list str;                (* the order in which python goes through a set *)
  dd_int : value -> outcome value               (* int(value) *)
}.

(** create_alias_table (1035-1039) *)
Definition alias_table (d : ddict) : list (str * value) :=
  flat_map (fun kt => match tget (u "_alias.definition_id") (snd kt) with Some v => [(fst kt, v)] | None => [] end) (dd_defs d).
(** for k in v, for a text its characters *)
Definition names_in (v : value) : list str :=
  match v with
  | VStr s => map (fun c => [c]) s
  | VList l | VSL l => flat_map (fun x => match x with VStr s => [s] | _ => [] end) l
  | _ => []
  end.
(** key in v *)
Definition name_in (key : str) (v : value) : bool :=
  match v with VStr s => substr key s | _ => mem str_eqb key (names_in v) end.
(** has_key_or_alias (StarFile.nw 1620-1628) *)
Definition own_aliases (d : ddict) (key : str) : list str :=
  match dget str_eqb key (alias_table d) with Some v => names_in v | None => [] end.
Definition has_or_alias (d : ddict) (key : str) (b : block) : bool :=
  has_key key b || existsb (fun k => has_key k b) (own_aliases d key).

Definition def_of (d : ddict) (key : str) : outcome table :=
  match dget str_eqb (lower key) (dd_defs d) with Some t => Ret t | None => Raise KeyErr end.
(** change_type (3396-3403) *)
Fixpoint each (f : value -> outcome value) (l : list value) : outcome (list value) :=
  match l with [] => Ret [] | x :: r => obind (f x) (fun y => obind (each f r) (fun ys => Ret (y :: ys))) end.
Definition change_type (d : ddict) (key : str) (v : value) : outcome value :=
  if py_eq v query then Ret v
  else obind (def_of d key) (fun _ =>
       match v with
       | VList l => obind (each (dd_conv d (lower key)) l) (fun l' => Ret (VList l'))
       | _ => dd_conv d (lower key) v
       end).

(** ** Reading an item (StarFile.nw 1532-1590)
    [derive allow store key] is self.dictionary.derive_item. *)
(** '?' in rawitem, or '.' *)
Definition unknown (v : value) : bool :=
  match v with
  | VList l | VSL l => vmem query l || vmem dot l
  | _ => py_eq v query || py_eq v dot
  end.
(** nothing but question marks *)
Definition to_calculate (v : value) : bool :=
  match v with
  | VList l | VSL l => forallb (fun a => py_eq a query) l
  | _ => py_eq v query
  end.
Definition attempts (derive : bool -> bool -> str -> act value) (store : bool) (key : str) (second : dres value -> act value) : act value :=
  fun b => match derive false store key b with
           | (b1, Err XFailure) => match derive true store key b1 with (b2, r) => second r b2 end
           | other => other
           end.
Definition getitem (d : ddict) (cache : bool) (derive : bool -> bool -> str -> act value) (provide : bool) (key : str) : act value :=
  if str_eqb key (u "saves") then err (XPy StarErr)
  else fun b =>
  match get_full key b with
  | Raise KeyErr =>
      attempts derive cache key (fun r => match r with Err XFailure => err (XPy KeyErr) | Ok v => ret v | Err x => err x end) b
  | Raise e => (b, Err (XPy e))
  | Ret (raw, is_value) =>
      if negb (dmem str_eqb (lower key) (dd_defs d)) then (b, Ok raw)
      else if is_value then (b, Ok raw)
      else if provide && negb (unknown raw) then lift (change_type d key raw) b
      else if provide && to_calculate raw then
        bind (change (remove_item key)) (fun _ =>
        attempts derive true key (fun r => match r with Err XFailure => ret raw | Ok _ => ret raw | Err x => err x end)) b
      else (b, Ok raw)
  end.

(** Running a method; cifdata.provide_value is True meanwhile (3069-3071). *)
Fixpoint run (d : ddict) (ask : str -> act value) (p : prog) : act value :=
  match p with
  | Done v => ret v
  | Stop e => err (XPy e)
  | Ask n next => bind (ask n) (fun v => run d ask (next v))
  | May n next => fun b =>
      if has_key n b then match ask n b with
                          | (b1, Ok v) => run d ask (next (Some v)) b1
                          | (b1, Err (XPy KeyErr)) => run d ask (next None) b1
                          | (b1, Err x) => (b1, Err x)
                          end
      else run d ask (next None) b
  | Has n next => bind (look (has_or_alias d n)) (fun x => run d ask (next x))
  end.
(** The methods in turn until one gives a value (3064-3082). *)
Fixpoint methods (d : ddict) (ask : str -> act value) (l : list prog) : act value :=
  match l with
  | [] => ret VNone
  | p :: r => fun b =>
      match run d ask p b with
      | (b1, Ok VNone) | (b1, Err XRecursion) | (b1, Err XDerivation) => methods d ask r b1
      | other => other
      end
  end.

(** ** Resolve using aliases (3305-3318): a value, or the name to go on with *)
(** self.change_type(key,cifdata[name]) *)
Definition under (d : ddict) (ask : str -> act value) (name key : str) : act (value + str) :=
  bind (ask name) (fun v => bind (lift (change_type d key v)) (fun w => ret (inl w))).
Definition resolve (d : ddict) (ask : str -> act value) (key : str) : act (value + str) :=
  fun b =>
  match filter (fun k => has_key k b) (own_aliases d key) with
  | k :: _ => under d ask k key b
  | [] =>
      match filter (fun a => name_in key (snd a)) (alias_table d) with
      | [] => (b, Ok (inr key))
      | [(key', v)] =>
          if has_key key' b then under d ask key' key' b
          else match filter (fun k => has_key k b) (names_in v) with
               | k :: _ => under d ask k key' b
               | [] => (b, Ok (inr key'))
               end
      | _ => (b, Err (XPy CifErr))
      end
  end.

(** self[key]["_name.category_id"] and the names of a category (2909-2910): compared as
    they are spelled. *)
Definition category_of (d : ddict) (key : str) : outcome str :=
  obind (def_of d key) (fun t => match tget a_category t with None => Raise KeyErr | Some (VStr c) => Ret c | Some _ => Raise AttributeErr end).
Definition cat_names (d : ddict) (cat : str) : list str :=
  map fst (filter (fun kt => veq_text (tget a_category (snd kt)) cat) (dd_defs d)).

(** ** Work out default value of dataname (3331-3350): the value, and whether it must be
    repeated *)
Definition truthy (v : value) : bool :=
  match v with VStr [] | VNone | VList [] | VSL [] | VDict [] => false | _ => true end.
Definition iter (v : value) : outcome (list value) :=
  match v with
  | VStr s => Ret (map (fun c => VStr [c]) s)
  | VList l | VSL l => Ret l
  | VDict l => Ret (map (fun kv => VStr (fst kv)) l)
  | VNum _ | VNone => Raise TypeErr
  end.
Definition low (v : value) : outcome value := match v with VStr s => Ret (VStr (lower s)) | _ => Raise AttributeErr end.
Definition attr (t : table) (a : str) : outcome value := match tget a t with Some v => Ret v | None => Raise KeyErr end.
Definition entry_at (index vals : list value) (v : value) : outcome value :=
  match index_of py_eq v index with
  | None => Raise ValueErr
  | Some i => match nth_error vals i with Some w => Ret w | None => Raise IndexErr end
  end.
Definition default (d : ddict) (ask : str -> act value) (key : str) (t : table) : act (value * bool) :=
  let dv := match tget (u "_enumeration.default") t with Some v => v | None => VStr [] end in
  let di := match tget (u "_enumeration.def_index_id") t with Some v => v | None => VStr [] end in
  if truthy dv then bind (lift (change_type d key dv)) (fun v => ret (v, true))
  else if truthy di then
    bind (lift (match di with VStr s => Ret s | _ => Raise AttributeErr end)) (fun idx =>
    bind (lift (attr t (u "_enumeration_default.index"))) (fun ivs =>
    bind (ask idx) (fun v =>
    bind (lift (obind (def_of d idx) (fun ti => attr ti (u "_type.contents")))) (fun tc =>
    if existsb (veq_text (Some tc)) [u "Code"; u "Name"; u "Tag"] then
      bind (lift (obind (iter ivs) (each low))) (fun index =>
      match v with
      | VList l | VSL l =>
          bind (lift (obind (each low l) (fun l' => obind (obind (attr t (u "_enumeration_default.value")) iter) (fun vals =>
                      obind (each (entry_at index vals) l') (fun r => change_type d key (VList r))))))
               (fun r => ret (r, false))
      | _ =>
          bind (lift (obind (low v) (fun x => obind (obind (attr t (u "_enumeration_default.value")) iter) (fun vals =>
                      obind (entry_at index vals x) (change_type d key)))))
               (fun r => ret (r, true))
      end)
    else err XUnbound))))
  else ret (VNone, false).

(** ** Storing (2970-3050) *)
Fixpoint conv_elem (v : value) : value :=
  match v with VList l | VSL l => VSL (map conv_elem l) | _ => v end.
Definition store_looped (d : ddict) (key : str) (v : value) (is_default : bool) : act value :=
  bind (lift (category_of d key)) (fun cat =>
  bind (if is_default then ret v else bind (lift (iter v)) (fun l => ret (VList (map conv_elem l)))) (fun out =>
  bind (look (fun b => filter (fun a => has_key a b) (cat_names d cat))) (fun present =>
  bind (change (add_item key out false)) (fun _ =>
  bind (change (match present with n :: _ => add_loop_name n key | [] => create_loop [key] (-1) true end)) (fun _ =>
  ret out))))).
Definition store_unlooped (key : str) (v : value) : act value :=
  bind (change (add_item key v false)) (fun _ => ret v).

Fixpoint store_columns (d : ddict) (l : list (str * value)) : act unit :=
  match l with
  | [] => ret tt
  | (n, v) :: r => fun b =>
      match store_looped d n v false b with
      | (b1, Ok _) | (b1, Err (XPy StarErr)) => store_columns d r b1
      | (b1, Err x) => (b1, Err x)
      end
  end.
Fixpoint keys_first (l : list str) : act unit :=
  match l with [] => ret tt | k :: r => bind (change (change_item_order (ON k) 0)) (fun _ => keys_first r) end.
Definition same_set (a b : list str) : bool := forallb (fun x => mem str_eqb x b) a && forallb (fun x => mem str_eqb x a) b.
Fixpoint key_names (d : ddict) (l : list str) : outcome (list str) :=
  match l with
  | [] => Ret []
  | n :: r => obind (def_of d n) (fun t => obind (key_names d r) (fun ks =>
      Ret (if veq_text (tget (u "_type.purpose") t) (u "Key") then n :: ks else ks)))
  end.
(** cifdata[the_key] with a list (3034) is AttributeError. *)
Definition store_cat (d : ddict) (v : value) (cat : str) : act unit :=
  match v with
  | VDict cols =>
      bind (lift (key_names d (map fst cols))) (fun keys =>
      bind (look (fun b => existsb (fun n => has_key n b) (map fst cols))) (fun double =>
      bind (if double then
              bind (lift (names_in_cat (dd_defs d) cat)) (fun ns =>
              bind (look (fun b => filter (fun a => has_key a b) ns)) (fun present =>
              if same_set present (map fst cols) then err (XPy AttributeErr) else ret false))
            else ret true) (fun go =>
      if go then bind (store_columns d cols) (fun _ => keys_first keys) else ret tt)))
  | _ => err (XPy AttributeErr)
  end.

(** ** Construction of categories (3134-3282) *)
(** v[i], v.index(x) *)
Definition subscript (v : value) (i : nat) : outcome value :=
  obind (iter v) (fun l => match nth_error l i with Some x => Ret x | None => Raise IndexErr end).
Definition position (x : value) (l : list value) : outcome nat := match index_of py_eq x l with Some i => Ret i | None => Raise ValueErr end.
Fixpoint maps {A B} (f : A -> outcome B) (l : list A) : outcome (list B) :=
  match l with [] => Ret [] | x :: r => obind (f x) (fun y => obind (maps f r) (fun ys => Ret (y :: ys))) end.
Fixpoint mapa {A B} (f : A -> act B) (l : list A) : act (list B) :=
  match l with [] => ret [] | x :: r => bind (f x) (fun y => bind (mapa f r) (fun ys => ret (y :: ys))) end.
(** A name: a text.  Names that are not texts are looked up or asked for in vain. *)
Definition as_name (v : value) : outcome str := match v with VStr s => Ret s | _ => Raise AttributeErr end.
Definition names_of_attr (t : table) (a : str) : outcome (list str) := obind (attr t a) (fun v => obind (iter v) (maps as_name)).
Definition name_of_attr (t : table) (a : str) : outcome str := obind (attr t a) as_name.
Definition c_type : str := u "_category_construct_local.type".
Definition c_components : str := u "_category_construct_local.components".
Definition c_new_ids : str := u "_category_construct_local.new_ids".
Definition c_int : str := u "_category_construct_local.integer_filter".
Definition c_text : str := u "_category_construct_local.text_filter".
Definition key_id : str := u "_category.key_id".
(** duplicate_datanames (3251-3282).  [last] is all_data_vals of the previous turn. *)
Definition projected (d : ddict) (from to : str) (skip : list str) : outcome (list str) :=
  obind (obind (object_names_in_cat (dd_defs d) from) (maps as_name)) (fun s =>
  obind (obind (object_names_in_cat (dd_defs d) to) (maps as_name)) (fun t =>
  Ret (dd_set d (filter (fun n => mem str_eqb n t && negb (mem str_eqb n skip)) s)))).
(** all_key_vals.index(a): a method of lists *)
Definition as_column (v : value) : outcome (list value) := match v with VList l | VSL l => Ret l | VStr _ => Raise TypeErr | _ => Raise AttributeErr end.
Fixpoint copy_rows (d : ddict) (ask : str -> act value) (from to source_key : str) (key_vals : list value) (names : list str) (last : option value) (acc : list (str * value)) : act (list (str * value)) :=
  match names with
  | [] => ret acc
  | n :: r =>
      bind (lift (dd_object d (lower from) (lower n))) (fun full_from =>
      bind (lift (dd_object d (lower to) (lower n))) (fun full_to =>
      bind (ask source_key) (fun keys =>
      bind (lift (match key_vals with [] => Ret [] | _ => obind (as_column keys) (fun l => maps (fun a => position a l) key_vals) end)) (fun pos =>
      bind (fun b => match ask full_from b with
                     | (b1, Ok v) => (b1, Ok (Some v))
                     | (b1, Err XDerivation) => (b1, Ok last)
                     | (b1, Err x) => (b1, Err x)
                     end) (fun data =>
      bind (match data with
            | Some v => lift (maps (subscript v) pos)
            | None => match pos with [] => ret [] | _ => err XUnbound end
            end) (fun col =>
      copy_rows d ask from to source_key key_vals r data (dset str_eqb full_to (VList col) acc)))))))
  end.
Fixpoint copy_all (d : ddict) (ask : str -> act value) (from to : str) (names : list str) (acc : list (str * value)) : act (list (str * value)) :=
  match names with
  | [] => ret acc
  | n :: r =>
      bind (lift (dd_object d (lower from) (lower n))) (fun full_from =>
      bind (lift (dd_object d (lower to) (lower n))) (fun full_to =>
      bind (fun b => match ask full_from b with
                     | (b1, Ok v) => (b1, Ok (dset str_eqb full_to v acc))
                     | (b1, Err XDerivation) => (b1, Ok acc)
                     | (b1, Err x) => (b1, Err x)
                     end) (fun acc' =>
      copy_all d ask from to r acc')))
  end.
Definition duplicate (d : ddict) (ask : str -> act value) (from to : str) (key_vals : option (list value)) (skip : list str) : act (list (str * value)) :=
  bind (lift (projected d from to skip)) (fun names =>
  bind (lift (obind (def_of d from) (fun t => name_of_attr t key_id))) (fun source_key =>
  match key_vals with
  | None => copy_all d ask from to names []
  | Some ks => copy_rows d ask from to source_key ks names None []
  end)).
Definition merged (a b : list (str * value)) : list (str * value) := fold_left (fun acc kv => dset str_eqb (fst kv) (snd kv) acc) b a.
(** The pairs of keys with equal values (3160-3161). *)
Fixpoint matching (m0 m1 : value) (c0 c1 xs ys0 : list value) : outcome (list (value * value)) :=
  match xs with
  | [] => Ret []
  | x :: xs' =>
      obind ((fix row (ys : list value) : outcome (list (value * value)) :=
         match ys with
         | [] => Ret []
         | y :: ys' =>
             obind (obind (position x c0) (subscript m0)) (fun v =>
             obind (obind (position y c1) (subscript m1)) (fun w =>
             obind (row ys') (fun r => Ret (if py_eq v w then (x, y) :: r else r))))
         end) ys0) (fun r => obind (matching m0 m1 c0 c1 xs' ys0) (fun rest => Ret (r ++ rest)))
  end.
(** range(n) *)
Definition numbers (n : nat) : list value := map (fun i => VNum (u (NilEmpty.string_of_uint (Nat.to_uint i)))) (seq 0 n).
Definition in_range {A} (l : list A) (i : nat) : outcome A := match nth_error l i with Some x => Ret x | None => Raise IndexErr end.
(** The values of the morphisms and of the keys of their categories (3146-3158). *)
Definition sides (d : ddict) (ask : str -> act value) (t : table) (pullback : bool) : act (list str * list value * list (list value)) :=
  bind (lift (names_of_attr t c_components)) (fun morphisms =>
  bind (mapa ask morphisms) (fun morph_values =>
  bind (lift (maps (category_of d) morphisms)) (fun cats =>
  bind (lift (maps (fun c => obind (def_of d c) (fun ct => name_of_attr ct key_id)) cats)) (fun cat_keys =>
  bind (mapa (fun k => bind (ask k) (fun v => lift (iter v))) cat_keys) (fun cat_values =>
  if pullback then ret (cats, morph_values, cat_values)
  else
    bind (lift (match tget c_int t with None => Ret morph_values | Some f => obind (iter f) (fun l => obind (maps (dd_int d) l) (fun l' => Ret (morph_values ++ [VList l']))) end)) (fun mv1 =>
    let mv2 := match tget c_text t with None => mv1 | Some f => mv1 ++ [f] end in
    bind (lift (obind (match rev mv2 with x :: _ => Ret x | [] => Raise IndexErr end) py_len)) (fun n =>
    ret (cats, mv2, cat_values ++ [numbers n])))))))).
(** pullback_ids (3160-3161) *)
Definition pullback_ids (morph_values : list value) (cat_values : list (list value)) : outcome (list (value * value)) :=
  obind (in_range cat_values 0) (fun c0 =>
  match c0 with
  | [] => Ret []
  | _ => obind (in_range cat_values 1) (fun c1 =>
         match c1 with
         | [] => Ret []
         | _ => obind (in_range morph_values 0) (fun m0 => obind (in_range morph_values 1) (fun m1 => matching m0 m1 c0 c1 c0 c1))
         end)
  end).
(** The columns (3165-3175): final_results is changed when a copied column has the name of
    a key. *)
Definition columns (d : ddict) (ask : str -> act value) (category : str) (t : table) (pullback : bool) (cats : list str) (ids : list (value * value)) : act (list (str * value)) :=
  bind (lift (names_of_attr t c_new_ids)) (fun newids =>
  bind (lift (maps (dd_object d category) newids)) (fun full =>
  bind (lift (in_range full 0)) (fun f0 =>
  bind (if pullback then lift (obind (in_range full 1) (fun f1 => Ret (dset str_eqb f1 (VList (map snd ids)) [(f0, VList (map fst ids))])))
        else ret [(f0, VList (map fst ids))]) (fun r0 =>
  bind (lift (in_range cats 0)) (fun cat0 =>
  bind (lift (match dget str_eqb f0 r0 with Some v => as_column v | None => Raise KeyErr end)) (fun k0 =>
  bind (duplicate d ask cat0 category (Some k0) newids) (fun e0 =>
  if pullback then
    bind (lift (in_range cats 1)) (fun cat1 =>
    bind (lift (obind (in_range full 1) (fun f1 => match dget str_eqb f1 (merged r0 e0) with Some v => as_column v | None => Raise KeyErr end))) (fun k1 =>
    bind (duplicate d ask cat1 category (Some k1) newids) (fun e1 => ret (merged (merged r0 e0) e1))))
  else ret (merged r0 e0)))))))).
(** construct_category (3135-3177) *)
Definition construct (d : ddict) (ask : str -> act value) (category : str) : act (list (str * value)) :=
  bind (lift (def_of d category)) (fun t =>
  let pullback := veq_text (tget c_type t) (u "Pullback") in
  if pullback || veq_text (tget c_type t) (u "Filter") then
    bind (sides d ask t pullback) (fun s =>
    bind (lift (pullback_ids (snd (fst s)) (snd s))) (fun ids =>
    match ids with
    | [] => ret []
    | _ =>
        bind (columns d ask category t pullback (fst (fst s)) ids) (fun result =>
        bind (store_cat d (VDict result) category) (fun _ => ret result))
    end))
  else
    (* another type: None is returned, and len(None) fails (3113) *)
    match tget c_type t with None => ret [] | Some _ => err (XPy TypeErr) end).
(** push_from_pullback (3184-3249).  Simplification: python extends the lists of [result]
    where they are, also when they are the lists of the block. *)
(** result[k].extend(more) *)
Definition extend (k : str) (more : act value) (r : list (str * value)) : act (list (str * value)) :=
  bind (lift (match dget str_eqb k r with Some (VList l) | Some (VSL l) => Ret l | Some _ => Raise AttributeErr | None => Raise KeyErr end)) (fun l =>
  bind more (fun v => bind (lift (iter v)) (fun m =>
  ret (dset str_eqb k (match dget str_eqb k r with Some (VSL _) => VSL (l ++ m) | _ => VList (l ++ m) end) r)))).
Fixpoint extend_known (new : bool) (more r : list (str * value)) : act (list (str * value)) :=
  match more with
  | [] => ret r
  | (k, v) :: m => bind (if dmem str_eqb k r then extend k (ret v) r else ret (if new then dset str_eqb k v r else r)) (extend_known new m)
  end.
(** The items common to all of the categories (3198-3212). *)
Definition push_pair (d : ddict) (ask : str -> act value) (target target_key sc : str) (t : table) (comp_cats source_ids new_ids : list str) (first : bool) (result : list (str * value)) : act (list (str * value)) :=
  bind (lift (match index_of str_eqb target comp_cats with Some i => Ret i | None => Raise ValueErr end)) (fun pos =>
  bind (lift (in_range source_ids pos)) (fun old_id =>
  bind (extend target_key (ask old_id) result) (fun r1 =>
  bind (lift (match tget c_new_ids t with Some (VStr _) => Raise TypeErr | _ => Ret tt end)) (fun _ =>
  bind (duplicate d ask sc target None (new_ids ++ [target_key])) (fun extra =>
  if first then ret (merged r1 extra) else extend_known false extra r1))))).
(** The bonus derivation (3223-3241). *)
Definition push_bonus (d : ddict) (ask : str -> act value) (s0 : str) (t : table) (components : list str) (r : list (str * value)) : act (list (str * value)) :=
  if veq_text (tget c_type t) (u "Filter") then
    bind (lift (match tget c_int t, tget c_text t with Some f, _ => Ret f | None, Some f => Ret f | None, None => Raise TypeErr end)) (fun f =>
    bind (lift (obind (py_len f) (fun _ => iter f))) (fun filter_values =>
    match filter_values with
    | [x] =>
        bind (lift (in_range components 0)) (fun name =>
        bind (lift (match tget c_int t with Some _ => dd_int d x | None => Ret x end)) (fun y =>
        bind (ask s0) (fun w => bind (lift (py_len w)) (fun n =>
        let new := match tget c_int t, f with None, VStr [c] => VStr (repeat c n) | _, _ => VList (repeat y n) end in
        if dmem str_eqb name r then extend name (ret new) r else ret (r ++ [(name, new)])))))
    | _ => ret r
    end))
  else lift (obind (attr t c_type) (fun _ => Raise ValueErr)).
Definition push_filter (d : ddict) (ask : str -> act value) (target target_key sc : str) (t : table) (components source_ids new_ids : list str) (result : list (str * value)) : act (list (str * value)) :=
  bind (duplicate d ask sc target None new_ids) (fun extra =>
  bind (match extra with
        | [] => bind (lift (in_range source_ids 0)) (fun s0 => look (has_key s0))
        | _ => ret true
        end) (fun something =>
  if something then
    bind (lift (in_range source_ids 0)) (fun s0 =>
    bind (extend target_key (ask s0) result) (fun r1 =>
    bind (extend_known true extra r1) (fun r2 => push_bonus d ask s0 t components r2)))
  else ret result)).
Fixpoint push_sources (d : ddict) (ask : str -> act value) (target target_key : str) (sources : list str) (first : bool) (result : list (str * value)) : act (list (str * value)) :=
  match sources with
  | [] => ret result
  | sc :: rest =>
      bind (lift (def_of d sc)) (fun t =>
      bind (lift (names_of_attr t c_components)) (fun components =>
      bind (lift (maps (category_of d) components)) (fun comp_cats =>
      bind (lift (names_of_attr t c_new_ids)) (fun new_ids =>
      bind (lift (maps (dd_object d sc) new_ids)) (fun source_ids =>
      bind (if Nat.eqb (length components) 2 then push_pair d ask target target_key sc t comp_cats source_ids new_ids first result
            else push_filter d ask target target_key sc t components source_ids new_ids result) (fun r =>
      push_sources d ask target target_key rest false r))))))
  end.
Definition same_lengths (r : list (str * value)) : act unit :=
  bind (lift (maps (fun kv => py_len (snd kv)) r)) (fun ls =>
  match ls with [] => err XAssert | n :: rest => if forallb (Nat.eqb n) rest then ret tt else err XAssert end).
Definition push (d : ddict) (ask : str -> act value) (target : str) (sources : list str) : act (list (str * value)) :=
  bind (lift (obind (def_of d target) (fun t => name_of_attr t key_id))) (fun target_key =>
  bind (push_sources d ask target target_key sources true [(target_key, VList [])]) (fun result =>
  bind (same_lengths result) (fun _ =>
  bind (store_cat d (VDict result) target) (fun _ => ret result)))).

(** ** derive_item (2903-2950) with its decorator (4313-4336) *)
(** The categories that are built from this one (3100-3104) *)
Fixpoint component_cats (d : ddict) (l : defs) : outcome (list (str * list str)) :=
  match l with
  | [] => Ret []
  | (k, t) :: r =>
      match tget c_components t with
      | None => component_cats d r
      | Some v => obind (obind (iter v) (maps as_name)) (fun ns => obind (maps (category_of d) ns) (fun cs => obind (component_cats d r) (fun rest => Ret ((k, cs) :: rest))))
      end
  end.
Definition pulled_to (d : ddict) (cat : str) : outcome (list str) :=
  obind (component_cats d (dd_defs d)) (fun l => Ret (map fst (filter (fun kc => mem str_eqb cat (snd kc)) l))).
(** try: ... except (CifRecursionError,StarDerivationError): leaves cat_result *)
Definition attempt (m : act (list (str * value))) : act (list (str * value)) :=
  fun b => match m b with (b1, Err XRecursion) | (b1, Err XDerivation) => (b1, Ok []) | other => other end.
Definition populate (d : ddict) (ask : str -> act value) (derive_cat : str -> act value) (cat key : str) : act (option value) :=
  bind (lift (pulled_to d cat)) (fun sources =>
  bind (lift (def_of d cat)) (fun t =>
  bind (match tget c_type t with Some _ => attempt (construct d ask cat) | None => ret [] end) (fun r1 =>
  bind (match sources, r1 with _ :: _, [] => attempt (push d ask cat sources) | _, _ => ret r1 end) (fun r2 =>
  match dd_methods d (lower cat) with
  | [] => ret (dget str_eqb key r2)
  | _ =>
      if dmem str_eqb key r2 then ret (dget str_eqb key r2)
      else bind (derive_cat cat) (fun r =>
           match r with
           | VDict cols => ret (dget str_eqb key cols)
           | VList [] | VSL [] => ret None
           | _ => err (XPy TypeErr)
           end)
  end)))).
(** Adjust value to be appropriate length (2954-2965): the value, and is_looped *)
Definition adjust (d : ddict) (ask : str -> act value) (cat : str) (present : list str) (v : value) (is_default : bool) : act (value * bool) :=
  bind (lift (def_of d cat)) (fun ct =>
  if is_loop ct then
    match present with
    | [] => ret (VList [], true)
    | n :: _ => if is_default then bind (ask n) (fun w => bind (lift (py_len w)) (fun len => ret (VList (repeat v len), true)))
                else ret (v, true)
    end
  else ret (v, false)).
Definition is_item_def (t : table) : bool := match tget a_scope t with None => true | o => veq_text o (u "Item") end.
Definition empty_list (v : value) : bool := match v with VList [] | VSL [] => true | _ => false end.
Definition store_result (d : ddict) (key cat : str) (v : value) (looped is_default : bool) : act value :=
  bind (lift (def_of d key)) (fun t =>
  if is_item_def t then (if looped then store_looped d key v is_default else store_unlooped key v)
  else bind (store_cat d v cat) (fun _ => ret v)).
Definition body (d : ddict) (ask : bool -> str -> act value) (derive_cat : str -> act value) (provide store allow : bool) (start : str) : act value :=
  bind (resolve d (ask provide) start) (fun r =>
  match r with
  | inl v => ret v
  | inr key =>
      bind (lift (category_of d key)) (fun cat =>
      let present := look (fun b => filter (fun a => has_or_alias d a b) (cat_names d cat)) in
      bind present (fun p1 =>
      bind (match p1 with [] => populate d (ask provide) derive_cat cat key | _ => ret None end) (fun early =>
      match early with
      | Some v => ret v
      | None =>
          bind present (fun p2 =>
          bind (methods d (ask true) (dd_methods d (lower key))) (fun v =>
          bind (match v with
                | VNone => if allow then bind (lift (def_of d key)) (fun t => default d (ask provide) key t) else ret (VNone, false)
                | _ => ret (v, false)
                end) (fun vd =>
          match fst vd with
          | VNone => err XDerivation
          | v =>
              bind (adjust d (ask provide) cat p2 v (snd vd)) (fun wl =>
              if negb (empty_list (fst wl)) && store then store_result d key cat (fst wl) (snd wl) (snd vd)
              else ret (fst wl))
          end)))
      end)))
  end).
(** [stored] is allow_defaults of the outermost call; [n] bounds the nesting. *)
Fixpoint derive (n : nat) (d : ddict) (cache : bool) (stack : list str) (stored provide allow store : bool) (key : str) : act value :=
  match n with
  | O => err XFuel
  | Datatypes.S n' =>
      if mem str_eqb key stack then err XRecursion
      else
        let allow' := match stack with [] => allow | _ => stored end in
        let inner prov al st k := derive n' d cache (stack ++ [key]) allow' prov al st k in
        fun b =>
        match body d (fun prov => getitem d cache (inner prov) prov) (fun cat => inner provide true true cat) provide store allow' key b with
        | (b1, Err XDerivation) => (b1, Err (match stack with [] => XFailure | _ => XDerivation end))
        | other => other
        end
  end.
(** block[key] *)
Definition read (n : nat) (d : ddict) (cache provide : bool) (key : str) : act value :=
  getitem d cache (derive n d cache [] false provide) provide key.
