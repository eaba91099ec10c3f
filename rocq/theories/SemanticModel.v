(** Model of the packets that put together the rows which several loops of one
    category have for a key: StarPacket.merge_packet (src/StarFile.nw 1306-1311),
    GetKeyedSemanticPacket (2321-2360) and GetMultiKeyedSemanticPacket
    (2264-2312).  Simplifications: the block reads its items as it does without a
    dictionary (no conversion, aliases or derived values), names of data items have
    more than one character, and the printing is left out. *)
From Coq Require Import String Ascii List NArith Bool.
From Verif Require Import PyBase StarBlockModel LoopModel ValidateModel TreeModel KeyModel.
Import ListNotations.
Open Scope string_scope.

(** A packet that is put together: its values as a list, its attributes, and the
    attribute [key] (2306-2308, 2353-2356). *)
Record semantic := mkSemantic { s_values : list value; s_atts : list (str * value); s_key : list str }.

(** a[0] == '_' and a[1] != "_" (1308) *)
Definition public (n : str) : bool :=
  match n with c :: e :: _ => N.eqb c 95 && negb (N.eqb e 95) | _ => false end.

(** merge_packet (1306-1311) *)
Definition merged : Type := (list value * list (str * value))%type.
Definition merge_packet (m : merged) (p : packet) : merged :=
  ((fst m ++ map snd p)%list,
   fold_left (fun d nv => dset str_eqb (fst nv) (snd nv) d) (filter (fun nv => public (fst nv)) p) (snd m)).

(** hasattr(p,keyname) (2352): __getattr__ (1313-1320) looks for the name in lower
    case and fails as long as the packet has no dictionary. *)
Definition has_attr (n : str) (m : merged) : bool := dmem str_eqb (lower n) (snd m).

(** test_key is not None and not (isinstance(test_key,list) and (None in test_key
    or len(test_key)==0)) (2341-2342) *)
Definition usable (v : value) : bool :=
  match v with
  | VNone => false
  | VList l | VSL l => negb (existsb (fun x => py_eq x VNone) l || match l with [] => true | _ => false end)
  | _ => true
  end.

(** The loop over the keys (2335-2349).  [last] is the packet that extra_packet
    still holds from an earlier turn. *)
Fixpoint gather (keys : list str) (kv : value) (lcase : bool) (b : block) (last : option packet) (m : merged)
  : outcome merged :=
  match keys with
  | [] => Ret m
  | k :: r =>
      match get_keyed_packet k kv lcase b with
      | Ret p => gather r kv lcase b (Some p) (merge_packet m p)
      | Raise KeyErr =>
          match get_item k b with
          | Raise _ => gather r kv lcase b last m
          | Ret v =>
              if usable v then gather r kv lcase b last m
              else match last with
                   | None => Raise NameErr
                   | Some p => gather r kv lcase b last (merge_packet m p)
                   end
          end
      | Raise ValueErr => gather r kv lcase b last m
      | Raise e => Raise e
      end
  end.

(** [k[0] for k in target_keys] (2330).  A key that is no text can not be asked
    for. *)
Definition first_name (k : list value) : outcome str :=
  match k with [] => Raise IndexErr | VStr s :: _ => Ret s | _ => Raise AttributeErr end.
Fixpoint first_names (ks : list (list value)) : outcome (list str) :=
  match ks with
  | [] => Ret []
  | k :: r => obind (first_name k) (fun s => obind (first_names r) (fun t => Ret (s :: t)))
  end.

(** 2332-2334 *)
Definition caseless_types : list str := [u "Code"; u "Tag"; u "Name"].
Definition caseless (d : defs) (k : str) : outcome bool :=
  obind (def_of d k) (fun t =>
  match tget (u "_type.contents") t with
  | None => Raise KeyErr
  | Some v => Ret (existsb (fun ty => veq_text (Some v) ty) caseless_types)
  end).

(** GetKeyedSemanticPacket (2321-2360) *)
Definition keyed_semantic (d : defs) (tbl : keytable) (kv : value) (cat : str) (b : block) : outcome semantic :=
  match dget str_eqb cat tbl with
  | None => Raise KeyErr
  | Some ks =>
      obind (first_names ks) (fun keys =>
      match keys with
      | [] => Raise IndexErr
      | k0 :: _ =>
          obind (caseless d k0) (fun lcase =>
          obind (gather keys kv lcase b None ([], [])) (fun m =>
          match find (fun k => has_attr k m) keys with
          | Some k => Ret (mkSemantic (fst m) (snd m) [k])
          | None => Raise ValueErr
          end))
      end)
  end.

(** ** GetMultiKeyedSemanticPacket *)
(** find_key (2289-2293); [equivs] is dictionary.key_equivs. *)
Definition find_key (equivs : list (str * list str)) (b : block) (k : str) : option str :=
  find (fun n => has_key n b) ((match dget str_eqb k equivs with Some l => l | None => [] end ++ [k])%list).
Definition true_keys (equivs : list (str * list str)) (b : block) (ks : list str) : list str :=
  flat_map (fun k => match find_key equivs b k with Some n => [n] | None => [] end) ks.
(** 2298: the keys that are added to keydict in 2281-2285 are tuples of names, so
    that no name is found in keydict but those that were given. *)
Definition keydict := list (str * (value * bool)).
Fixpoint true_keydict (kd : keydict) (ts ks : list str) (acc : keydict) : outcome keydict :=
  match ts, ks with
  | t :: ts', k :: ks' =>
      match dget str_eqb k kd with
      | None => Raise KeyErr
      | Some v => true_keydict kd ts' ks' (dset str_eqb t v acc)
      end
  | _, _ => Ret acc
  end.
(** 2294-2306; the second result is true_keys after the last turn. *)
Fixpoint multi_gather (repr : value -> str) (equivs : list (str * list str)) (kd : keydict) (sets : list (list str)) (b : block)
  (m : merged) (tk : list str) : outcome (merged * list str) :=
  match sets with
  | [] => Ret (m, tk)
  | ks :: r =>
      let ts := true_keys equivs b ks in
      if Nat.eqb (length ts) (length ks) then
        obind (true_keydict kd ts ks []) (fun tkd =>
        match get_compound_packet repr tkd b with
        | Ret p => multi_gather repr equivs kd r b (merge_packet m p) ts
        | Raise KeyErr | Raise ValueErr => multi_gather repr equivs kd r b m ts
        | Raise e => Raise e
        end)
      else multi_gather repr equivs kd r b m ts
  end.
(** A table without keys leaves true_keys without a value (2308). *)
Definition multi_semantic (repr : value -> str) (equivs : list (str * list str)) (tbl : list (str * list (list str)))
  (kd : keydict) (cat : str) (b : block) : outcome semantic :=
  match dget str_eqb cat tbl with
  | None => Raise KeyErr
  | Some [] => Raise NameErr
  | Some sets =>
      obind (multi_gather repr equivs kd sets b ([], []) []) (fun mt =>
      Ret (mkSemantic (fst (fst mt)) (snd (fst mt)) (snd mt)))
  end.
