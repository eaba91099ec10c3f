(** Model of BlockCollection.makebc and merge (src/StarFile.nw 479-492, 731-787) over
    the collections of CollectionModel.v.

    Simplifications: match_function and single_block are left out (the latter is the
    merge of two blocks, MergeModel.v); a block shared by two collections is a
    value, as in CollectionModel.v. *)
From Coq Require Import String Ascii List NArith ZArith Bool.
From Verif Require Import PyBase StarBlockModel ScanModel CollectionModel MergeModel.
Import ListNotations.

(** makebc (479-492) *)
Fixpoint fetch_blocks (l : list str) (c : coll) : outcome (list (str * block)) :=
  match l with
  | [] => Ret []
  | x :: r => match dget str_eqb x (c_dict c) with
              | None => Raise KeyErr
              | Some b => obind (fetch_blocks r c) (fun d => Ret ((x, b) :: d))
              end
  end.
Definition makebc (names : list str) (sc : scope) (c : coll) : outcome coll :=
  let low := map lower names in
  let proto := filter (fun a => smem (fst a) low) (c_child c) in
  let t := map (fun a => match pc_parent (snd a) with
                         | Some p => if smem p low then a else (fst a, PC (pc_id (snd a)) None)
                         | None => a
                         end) proto in
  obind (fetch_blocks (map fst proto) c) (fun d =>
  Ret (set_scope sc (Coll d (map fst proto) t [] low StdCif sc false G20))).

(** ==, on the values of the attribute that blocks are matched by: texts and lists
    of texts. *)
Definition text_eq (a b : value) : bool := match a, b with VStr s, VStr t => str_eqb s t | _, _ => false end.
Fixpoint texts_eq (a b : list value) : bool :=
  match a, b with
  | [], [] => true
  | x :: r, y :: q => text_eq x y && texts_eq r q
  | _, _ => false
  end.
Definition att_eq (a b : value) : bool :=
  match a, b with
  | VStr _, VStr _ => text_eq a b
  | VList l, VList m | VList l, VSL m | VSL l, VList m | VSL l, VSL m => texts_eq l m
  | _, _ => false
  end.
(** 762-763; an incoming block without the attribute has the number 0, an own block
    without it None. *)
Definition att_match (att this : option value) : bool :=
  match att, this with
  | Some a, Some t => att_eq a t || match t with VList l | VSL l => existsb (att_eq a) l | _ => false end
  | _, _ => false
  end.
(** 759-766: the first match, and what is left of the two lists.  The index runs
    over the visible keys, the name is taken from the table of parents. *)
Fixpoint first_match (att : option value) (items : list (option value)) : option nat :=
  match items with
  | [] => None
  | t :: r => if att_match att t then Some 0%nat else option_map Datatypes.S (first_match att r)
  end.
Fixpoint remove_nth {A} (n : nat) (l : list A) : list A :=
  match n, l with
  | _, [] => []
  | O, _ :: r => r
  | Datatypes.S n', x :: r => x :: remove_nth n' r
  end.
(** self[key].get(att) of a block of the collection. *)
Definition att_of (att : str) (key : str) (c : coll) : outcome (option value) :=
  obind (c_get key c) (fun b => match get_item att b with
                                | Ret v => Ret (Some v)
                                | Raise KeyErr => Ret None
                                | Raise e => Raise e
                                end).
Fixpoint atts_of (att : str) (keys : list str) (c : coll) : outcome (list (option value)) :=
  match keys with
  | [] => Ret []
  | k :: r => obind (att_of att k c) (fun v => obind (atts_of att r c) (fun vs => Ret (v :: vs)))
  end.

(** The loop over the incoming blocks (752-785).  [att] is match_att, [items] and
    [base] are block_to_item and base_keys. *)
Definition set_block (key : str) (b : block) (c : coll) : coll := set_dict (dset str_eqb (lower key) b (c_dict c)) c.
Fixpoint merge_keys (mode : merge_mode) (parent : option str) (idblock : str) (att : option str)
  (keys : list str) (items : list (option value)) (base : list str) (n c : coll) : coll * outcome unit :=
  match keys with
  | [] => (c, Ret tt)
  | key :: r =>
      if str_eqb key idblock then merge_keys mode parent idblock att r items base n c
      else
        match (match att with None => Ret None | Some a => att_of a key n end) with
        | Raise e => (c, Raise e)
        | Ret av =>
            match (match first_match av items with
                   | None => Ret (key, items, base)
                   | Some i => match nth_error base i with
                               | None => Raise IndexErr
                               | Some k => Ret (k, remove_nth i items, remove_nth i base)
                               end
                   end) with
            | Raise e => (c, Raise e)
            | Ret (basekey, items', base') =>
                if negb (c_has basekey c) || match mode with MReplace => true | _ => false end then
                  match obind (get_parent key n) (fun p => obind (c_get key n) (fun b => Ret (p, b))) with
                  | Raise e => (c, Raise e)
                  | Ret (p, b) =>
                      match new_block basekey b true (match p with None => parent | Some _ => p end) c with
                      | (c', Raise e) => (c', Raise e)
                      | (c', Ret _) => merge_keys mode parent idblock att r items' base' n c'
                      end
                  end
                else match mode with
                     | MOverlay =>
                         match obind (c_get basekey c) (fun b => obind (c_get key n) (fun nb => Ret (b, nb))) with
                         | Raise e => (c, Raise e)
                         | Ret (b, nb) =>
                             match block_merge MOverlay (match att with None => [] | Some a => [a] end) nb b with
                             | (b', Raise e) => (set_block basekey b' c, Raise e)
                             | (b', Ret _) => merge_keys mode parent idblock att r items' base' n (set_block basekey b' c)
                             end
                         end
                     | _ => (c, Raise StarErr)
                     end
            end
        end
  end.
(** merge (731-787); [mode] None is the default. *)
Definition coll_merge (mode : option merge_mode) (parent : option str) (idblock : str) (att : option str) (n c : coll) : coll * outcome unit :=
  let m := match mode with Some m => m | None => match c_std c with StdNone => MReplace | _ => MStrict end end in
  let ids := map (fun a => pc_id (snd a)) in
  match (match att with None => Ret (map (fun k => Some (VStr k)) (ids (c_child c))) | Some a => atts_of a (c_vis c) c end) with
  | Raise e => (c, Raise e)
  | Ret items => merge_keys m parent idblock att (ids (c_child n)) items (ids (c_child c)) n c
  end.
