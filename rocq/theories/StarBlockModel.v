(** Model of StarBlock (src/StarFile.nw 1412-2403): storage, naming, order and
    loops.  Every operation returns the new block and the outcome, so changes
    made before an exception are visible.

    Not modelled here: the DDLm dictionary attached to a block
    ([self.dictionary] is None), output formatting (see WriteModel.v), numpy
    values, python-2 byte strings. *)
From Coq Require Import String Ascii List NArith ZArith Bool.
From Verif Require Import PyBase.
Import ListNotations.
Open Scope N_scope.

(** Entry of [item_order]: a lower-case dataname or a loop number. *)
Inductive oitem := ON (n : str) | OL (k : Z).

Definition oitem_eqb (a b : oitem) : bool :=
  match a, b with
  | ON x, ON y => str_eqb x y
  | OL x, OL y => Z.eqb x y
  | _, _ => false
  end.

(** StarBlock state, src/StarFile.nw 1461-1489. *)
Record block := mkBlock {
  b_data : list (str * (value * value));   (* self.block: lower -> [string, value] *)
  b_loops : list (Z * list str);           (* self.loops *)
  b_order : list oitem;                    (* self.item_order *)
  b_true : list (str * str);               (* self.true_case *)
  b_over : bool;                           (* self.overwrite *)
  b_max : Z;                               (* self.maxnamelength *)
  b_uni : bool                             (* self.characterset == 'unicode' *)
}.

Definition empty_block (over : bool) (maxn : Z) (uni : bool) : block :=
  mkBlock [] [] [] [] over maxn uni.

Definition set_order (o : list oitem) (b : block) : block :=
  mkBlock (b_data b) (b_loops b) o (b_true b) (b_over b) (b_max b) (b_uni b).
Definition set_loops (l : list (Z * list str)) (b : block) : block :=
  mkBlock (b_data b) l (b_order b) (b_true b) (b_over b) (b_max b) (b_uni b).

(** src/StarFile.nw 1612-1615 (string keys). *)
Definition has_key (key : str) (b : block) : bool :=
  dmem str_eqb (lower key) (b_data b).

(** src/StarFile.nw 1603-1604 *)
Definition b_keys (b : block) : list str := dkeys (b_data b).

(** src/StarFile.nw 2135-2143; the [None] case is the result -1. *)
Definition loop_has (n : str) (kl : Z * list str) : bool := mem str_eqb n (snd kl).
Definition find_loop (key : str) (b : block) : option Z :=
  option_map fst (find (loop_has (lower key)) (b_loops b)).

(** src/StarFile.nw 3279-3287 *)
Fixpoint not_none (v : value) : bool :=
  match v with
  | VNone => false
  | VList l | VSL l => forallb not_none l
  | _ => true
  end.

(** src/StarFile.nw 1977-1997; only the value is kept, the calculation-ready
    flag is in [value_ready]. *)
Definition get_full (key : str) (b : block) : outcome (value * bool) :=
  match dget str_eqb (lower key) (b_data b) with
  | None => Raise KeyErr
  | Some (s, v) =>
      match s with
      | VList _ =>
          if not_none s then Ret (s, false)
          else match v with
               | VList (VSL _ :: _) => Ret (v, false)
               | VSL (VSL _ :: _) => Ret (v, false)
               | VList _ | VSL _ | VStr _ | VDict _ => Ret (v, true)
               | VNone | VNum _ => Raise TypeErr          (* len(v) *)
               end
      | _ =>
          if not_none s then Ret (s, false)
          else Ret (v, match v with VSL _ => false | _ => true end)
      end
  end.

(** __getitem__ without a dictionary, src/StarFile.nw 1532-1555. *)
Definition get_item (key : str) (b : block) : outcome value :=
  if str_eqb key (u "saves") then Raise StarErr
  else obind (get_full key b) (fun r => Ret (fst r)).

(** check_data_name, src/StarFile.nw 1792-1821. *)
Definition ascii_name_char (c : N) : bool := (33 <=? c) && (c <=? 126).
Definition uni_name_char (c : N) : bool :=
  negb ((c <? 33)
     || ((126 <? c) && (c <? 160))
     || ((0xD7FF <? c) && (c <? 0xE000))
     || ((0xFDCF <? c) && (c <? 0xFDF0))
     || (c =? 0xFFFE) || (c =? 0xFFFF)
     || ((0x10000 <? c) && (N.land c 0xE =? 0xE))).
Definition check_data_name (maxn : Z) (uni : bool) (name : str) : outcome unit :=
  if ((0 <? maxn) && (maxn <? Z.of_nat (length name)))%Z%bool then Raise StarErr
  else match name with
       | [] => Raise IndexErr
       | c :: _ =>
           if negb (c =? 95) then Raise StarErr
           else if forallb (if uni then uni_name_char else ascii_name_char) name
                then Ret tt else Raise StarErr
       end.

(** char_check, src/StarFile.nw 1499-1508: the characters of one value. The
    class lists every printable ASCII character plus space, newline, return
    and tab. *)
Definition ascii_val_char (c : N) : bool :=
  (c =? 9) || (c =? 10) || (c =? 13) || ((32 <=? c) && (c <=? 126)).
Definition uni_val_char (c : N) : bool :=
  ascii_val_char c
  || ((0xA0 <=? c) && (c <=? 0xD7FF))
  || ((0xE000 <=? c) && (c <=? 0xFDCF))
  || ((0xFDF0 <=? c) && (c <=? 0xFFFD))
  || ((0x10000 <=? c) && (c <=? 0x10FFFD)).
Definition val_char (uni : bool) : N -> bool :=
  if uni then uni_val_char else ascii_val_char.

(** check_item_value, src/StarFile.nw 1824-1839: only the top level of a list
    is looked at; iterating a dict gives its keys. *)
Definition check_one (uni : bool) (v : value) : bool :=
  match v with VStr s => forallb (val_char uni) s | _ => true end.
Definition check_item_value (uni : bool) (v : value) : outcome unit :=
  let ok := match v with
            | VList l | VSL l => forallb (check_one uni) l
            | VDict d => forallb (fun kv => forallb (val_char uni) (fst kv)) d
            | _ => check_one uni v
            end in
  if ok then Ret tt else Raise StarErr.

(** check_stringiness, src/StarFile.nw 1905-1915. *)
Fixpoint check_stringiness (v : value) : bool :=
  match v with
  | VStr _ => true
  | VNum _ | VNone => false
  | VList l | VSL l => forallb check_stringiness l
  | VDict _ => true                      (* iterates over the (string) keys *)
  end.

(** regularise_data, src/StarFile.nw 1851-1868: returns the value and the
    equally shaped structure of Nones.  An empty plain list raises ValueError
    (unpacking an empty zip). *)
Fixpoint regularise (v : value) : outcome (value * value) :=
  match v with
  | VStr _ | VNum _ | VSL _ | VDict _ => Ret (v, VNone)
  | VNone => Raise StarErr
  | VList l =>
      let fix go (l : list value) : outcome (list value * list value) :=
        match l with
        | [] => Ret ([], [])
        | x :: r =>
            match regularise x with
            | Raise e => Raise e
            | Ret (v', s') =>
                match go r with
                | Raise e => Raise e
                | Ret (vs, ss) => Ret (v' :: vs, s' :: ss)
                end
            end
        end in
      match l with
      | [] => Raise ValueErr
      | _ => match go l with
             | Raise e => Raise e
             | Ret (vs, ss) => Ret (VList vs, VList ss)
             end
      end
  end.

(** The table updates at the end of AddItem, src/StarFile.nw 1741-1754. *)
Definition store_item (key : str) (s v : value) (b : block) : block :=
  let lk := lower key in
  let order :=
    if negb (has_key lk b) && match find_loop lk b with None => true | Some _ => false end
    then b_order b ++ [ON lk] else b_order b in
  mkBlock (dset str_eqb lk (s, v) (b_data b)) (b_loops b) order
          (ddel str_eqb lk (b_true b) ++ [(lk, key)])
          (b_over b) (b_max b) (b_uni b).

(** AddItem, src/StarFile.nw 1719-1754 (string keys). *)
Definition add_item (key : str) (val : value) (precheck : bool) (b : block)
  : block * outcome unit :=
  match (if precheck then Ret tt else check_data_name (b_max b) (b_uni b) key) with
  | Raise e => (b, Raise e)
  | Ret _ =>
      if has_key key b && negb (b_over b) then (b, Raise StarErr)
      else if precheck then (store_item key val VNone b, Ret tt)
      else match regularise val with
           | Raise e => (b, Raise e)
           | Ret (reg, emp) =>
               match check_item_value (b_uni b) reg with
               | Raise e => (b, Raise e)
               | Ret _ =>
                   if check_stringiness reg
                   then (store_item key reg emp b, Ret tt)
                   else (store_item key emp reg b, Ret tt)
               end
           end
  end.

(** __setitem__, src/StarFile.nw 1526-1530. *)
Definition set_item (key : str) (val : value) (b : block) : block * outcome unit :=
  if str_eqb key (u "saves") then (b, Raise StarErr) else add_item key val false b.

(** RemoveItem, src/StarFile.nw 1932-1947. *)
Definition upd_loop (k : Z) (names : list str) (l : list (Z * list str)) :=
  dset Z.eqb k names l.
Definition remove_item (key : str) (b : block) : block * outcome unit :=
  let lk := lower key in
  if has_key lk b then
    let data := ddel str_eqb lk (b_data b) in
    let tr := ddel str_eqb lk (b_true b) in
    match find_loop key b with
    | Some k =>
        let names := match dget Z.eqb k (b_loops b) with Some n => n | None => [] end in
        let names' := remove1 str_eqb lk names in
        match names' with
        | [] => let b' := mkBlock data (ddel Z.eqb k (b_loops b)) (b_order b) tr
                                  (b_over b) (b_max b) (b_uni b) in
                if mem oitem_eqb (OL k) (b_order b)
                then (set_order (remove1 oitem_eqb (OL k) (b_order b)) b', Ret tt)
                else (b', Raise ValueErr)
        | _ => (mkBlock data (upd_loop k names' (b_loops b)) (b_order b) tr
                        (b_over b) (b_max b) (b_uni b), Ret tt)
        end
    | None =>
        let b' := mkBlock data (b_loops b) (b_order b) tr (b_over b) (b_max b) (b_uni b) in
        if mem oitem_eqb (ON lk) (b_order b)
        then (set_order (remove1 oitem_eqb (ON lk) (b_order b)) b', Ret tt)
        else (b', Raise ValueErr)
    end
  else (b, Ret tt).

(** isinstance(x,list) and not isinstance(x,StarList) *)
Definition is_plain_list (v : value) : bool :=
  match v with VList _ => true | _ => false end.

(** len(x) *)
Definition py_len (v : value) : outcome nat :=
  match v with
  | VStr s => Ret (length s)
  | VList l | VSL l => Ret (length l)
  | VDict d => Ret (length d)
  | VNum _ | VNone => Raise TypeErr
  end.

Fixpoint get_items (names : list str) (b : block) : outcome (list value) :=
  match names with
  | [] => Ret []
  | n :: r => obind (get_item n b) (fun v => obind (get_items r b) (fun vs => Ret (v :: vs)))
  end.

Definition list_len (v : value) : nat :=
  match v with VList l => length l | _ => 0%nat end.

Definition all_same_len (vs : list value) : bool :=
  match vs with
  | [] => true
  | v :: r => forallb (fun w => Nat.eqb (list_len w) (list_len v)) r
  end.

(** for d in datanames: self[d] = [self[d]], src/StarFile.nw 2047-2048 *)
Fixpoint listify_items (names : list str) (b : block) : block * outcome unit :=
  match names with
  | [] => (b, Ret tt)
  | n :: r =>
      match get_item n b with
      | Raise e => (b, Raise e)
      | Ret v =>
          match set_item n (VList [v]) b with
          | (b', Raise e) => (b', Raise e)
          | (b', Ret _) => listify_items r b'
          end
      end
  end.

(** Length checks at the start of CreateLoop, src/StarFile.nw 2037-2048. *)
Definition loop_length_check (names : list str) (b : block) : block * outcome unit :=
  match get_items names b with
  | Raise e => (b, Raise e)
  | Ret vs =>
      let listed := filter is_plain_list vs in
      if Nat.eqb (length listed) (length names) then
        if all_same_len vs then (b, Ret tt) else (b, Raise ValueErr)
      else if negb (Nat.eqb (length listed) 0) then (b, Raise ValueErr)
      else listify_items names b
  end.

(** [self.loops[a].remove(b)] for all [b] present, src/StarFile.nw 2052. *)
Definition drop_names (names : list str) (l : list str) : list str :=
  fold_left (fun acc n => if mem str_eqb n acc then remove1 str_eqb n acc else acc) names l.

Definition is_empty_loop (kl : Z * list str) : bool :=
  match snd kl with [] => true | _ => false end.

(** max(self.loops.keys())+1, or 1, src/StarFile.nw 2058-2061. *)
Definition new_loop_no (loops : list (Z * list str)) : Z :=
  match loops with
  | [] => 1%Z
  | (k, _) :: r => (fold_left (fun m kl => Z.max m (fst kl)) r k + 1)%Z
  end.

(** for a in empty_loops: self.item_order.remove(a); del self.loops[a] *)
Fixpoint drop_empty (ks : list Z) (b : block) : block * outcome unit :=
  match ks with
  | [] => (b, Ret tt)
  | k :: r =>
      if mem oitem_eqb (OL k) (b_order b)
      then drop_empty r (set_loops (ddel Z.eqb k (b_loops b))
                          (set_order (remove1 oitem_eqb (OL k) (b_order b)) b))
      else (b, Raise ValueErr)
  end.

Definition order_not_in (names : list str) (o : oitem) : bool :=
  match o with ON n => negb (mem str_eqb n names) | OL _ => true end.

(** CreateLoop, src/StarFile.nw 2029-2068.  [order] = None is the default -1
    (any negative order appends). *)
Definition create_loop (names : list str) (order : Z) (length_check : bool) (b : block)
  : block * outcome unit :=
  match (if length_check then loop_length_check names b else (b, Ret tt)) with
  | (b1, Raise e) => (b1, Raise e)
  | (b1, Ret _) =>
      let lc := map lower names in
      let b2 := set_loops (map (fun kl => (fst kl, drop_names lc (snd kl))) (b_loops b1)) b1 in
      let empties := map fst (filter is_empty_loop (b_loops b2)) in
      match drop_empty empties b2 with
      | (b3, Raise e) => (b3, Raise e)
      | (b3, Ret _) =>
          let no := new_loop_no (b_loops b3) in
          let loops4 := b_loops b3 ++ [(no, lc)] in
          let order4 := if (0 <=? order)%Z then py_insert order (OL no) (b_order b3)
                        else b_order b3 ++ [OL no] in
          (set_loops loops4 (set_order (filter (order_not_in lc) order4) b3), Ret tt)
      end
  end.

(** AddLoopName, src/StarFile.nw 2089-2115. *)
Definition add_loop_name (oldname newname : str) (b : block) : block * outcome unit :=
  let ln := lower newname in
  match find_loop oldname b with
  | None => (b, Raise KeyErr)
  | Some k =>
      let names := match dget Z.eqb k (b_loops b) with Some n => n | None => [] end in
      if mem str_eqb ln names then (b, Ret tt)
      else
        match obind (get_item oldname b) py_len with
        | Raise e => (b, Raise e)
        | Ret loop_len =>
            match obind (get_item newname b) py_len with
            | Raise e => (b, Raise e)
            | Ret new_len =>
                if negb (Nat.eqb new_len loop_len) then (b, Raise StarLengthErr)
                else
                  let loops1 := map (fun kl => (fst kl, if mem str_eqb ln (snd kl)
                                                        then remove1 str_eqb ln (snd kl)
                                                        else snd kl)) (b_loops b) in
                  let loops2 := dset Z.eqb k (names ++ [ln]) loops1 in
                  (set_loops loops2 (set_order (remove1 oitem_eqb (ON ln) (b_order b)) b), Ret tt)
            end
        end
  end.

(** update(adict), src/StarFile.nw 1654-1656. *)
Fixpoint update_items (kvs : list (str * value)) (b : block) : block * outcome unit :=
  match kvs with
  | [] => (b, Ret tt)
  | (k, v) :: r =>
      match add_item k v false b with
      | (b', Raise e) => (b', Raise e)
      | (b', Ret _) => update_items r b'
      end
  end.

Fixpoint add_loop_names (dataname : str) (names : list str) (b : block) : block * outcome unit :=
  match names with
  | [] => (b, Ret tt)
  | n :: r =>
      match add_loop_name dataname n b with
      | (b', Raise e) => (b', Raise e)
      | (b', Ret _) => add_loop_names dataname r b'
      end
  end.

(** AddToLoop, src/StarFile.nw 2166-2174. *)
Definition add_to_loop (dataname : str) (kvs : list (str * value)) (b : block)
  : block * outcome unit :=
  match update_items kvs b with
  | (b', Raise e) => (b', Raise e)
  | (b', Ret _) => add_loop_names dataname (map fst kvs) b'
  end.

(** AddLoopItem, src/StarFile.nw 1760-1776: a whole loop (names, values) ... *)
Definition add_loop_item (names : list str) (vals : list value) (b : block)
  : block * outcome unit :=
  match update_items (combine names vals) b with
  | (b', Raise e) => (b', Raise e)
  | (b', Ret _) => create_loop names (-1) true b'
  end.

(** ChangeItemOrder, src/StarFile.nw 1684-1697.  With a loop number FindLoop
    calls [.lower()] on an int: AttributeError. *)
Definition change_item_order (it : oitem) (newpos : Z) (b : block) : block * outcome unit :=
  match it with
  | OL _ => match b_loops b with
            | [] => (* the comprehension in FindLoop does not run *)
                if mem oitem_eqb it (b_order b)
                then (set_order (py_insert newpos it (remove1 oitem_eqb it (b_order b))) b, Ret tt)
                else (b, Raise ValueErr)
            | _ => (b, Raise AttributeErr)
            end
  | ON name =>
      let ln := lower name in
      match find_loop name b with
      | None =>
          if mem oitem_eqb (ON ln) (b_order b)
          then (set_order (py_insert newpos (ON ln) (remove1 oitem_eqb (ON ln) (b_order b))) b, Ret tt)
          else (b, Raise ValueErr)
      | Some k =>
          let names := match dget Z.eqb k (b_loops b) with Some n => n | None => [] end in
          (set_loops (dset Z.eqb k (py_insert newpos ln (remove1 str_eqb ln names)) (b_loops b)) b, Ret tt)
      end
  end.

(** GetItemPosition, src/StarFile.nw 1662-1678; loop number -1 is [None]. *)
Definition get_item_position (it : oitem) (b : block) : outcome (option Z * nat) :=
  match it with
  | OL _ => match index_of oitem_eqb it (b_order b) with
            | Some i => Ret (None, i) | None => Raise ValueErr end
  | ON name =>
      if negb (has_key name b) then Raise ValueErr
      else match index_of oitem_eqb (ON (lower name)) (b_order b) with
           | Some i => Ret (None, i)
           | None =>
               match find_loop name b with
               | None => Raise KeyErr                     (* self.loops[-1] *)
               | Some k =>
                   match dget Z.eqb k (b_loops b) with
                   | None => Raise KeyErr
                   | Some names => match index_of str_eqb (lower name) names with
                                   | Some i => Ret (Some k, i) | None => Raise ValueErr end
                   end
               end
           end
  end.

(** clear, src/StarFile.nw 1637-1641. *)
Definition clear_block (b : block) : block :=
  mkBlock [] [] [] [] (b_over b) (b_max b) (b_uni b).

(** BlockCollection.lock/unlock set [overwrite], src/StarFile.nw 258-266. *)
Definition set_overwrite (ov : bool) (b : block) : block :=
  mkBlock (b_data b) (b_loops b) (b_order b) (b_true b) ov (b_max b) (b_uni b).

(** setmaxnamelength, src/StarFile.nw 1491-1497: the limit is stored before
    the check. *)
Definition setmaxnamelength (m : Z) (b : block) : block * outcome unit :=
  let b' := mkBlock (b_data b) (b_loops b) (b_order b) (b_true b) (b_over b) m (b_uni b) in
  if ((0 <? m)%Z && existsb (fun k => (m <? Z.of_nat (length k))%Z) (b_keys b))%bool
  then (b', Raise StarErr) else (b', Ret tt).

(** set_characterset, src/StarFile.nw 1499-1508. *)
Definition set_characterset (uni : bool) (b : block) : block :=
  mkBlock (b_data b) (b_loops b) (b_order b) (b_true b) (b_over b) (b_max b) uni.

(** GetLoopNames, src/StarFile.nw 2149-2155. *)
Definition get_loop_names (key : str) (b : block) : outcome (list str) :=
  match find_loop key b with
  | None => Raise KeyErr
  | Some k => match dget Z.eqb k (b_loops b) with
              | Some n => Ret n | None => Raise KeyErr end
  end.

(** The public editing interface as a transition system. *)
Inductive op :=
| OAdd (key : str) (v : value)                      (* block[key] = v *)
| ORemove (key : str)                               (* del block[key] *)
| OCreate (names : list str) (order : Z)            (* CreateLoop(names,order) *)
| OAddLoopName (oldname newname : str)
| OAddToLoop (name : str) (kvs : list (str * value))
| OAddLoopItem (names : list str) (vals : list value)
| OReorder (it : oitem) (pos : Z)
| OOverwrite (ov : bool)
| OMaxName (m : Z)
| OCharset (uni : bool)
| OClear.

Definition run_op (o : op) (b : block) : block * outcome unit :=
  match o with
  | OAdd k v => set_item k v b
  | ORemove k => remove_item k b
  | OCreate ns ord => create_loop ns ord true b
  | OAddLoopName o n => add_loop_name o n b
  | OAddToLoop n kvs => add_to_loop n kvs b
  | OAddLoopItem ns vs => add_loop_item ns vs b
  | OReorder it pos => change_item_order it pos b
  | OOverwrite ov => (set_overwrite ov b, Ret tt)
  | OMaxName m => setmaxnamelength m b
  | OCharset un => (set_characterset un b, Ret tt)
  | OClear => (clear_block b, Ret tt)
  end.

Definition run_ops (os : list op) (b : block) : block :=
  fold_left (fun s o => fst (run_op o s)) os b.
