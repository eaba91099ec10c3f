(** Block collections (class BlockCollection, src/StarFile.nw 217-729, and the
    order of output in WriteOut, 837-896).  No proofs here.

    Simplifications.  A block is a value, so sharing of one block object by two
    collections, or by the caller, is not modelled; a set ([lower_keys]) is a list
    whose order carries no meaning (claims hold for every order).  The attributes
    [renamed], [master_template], [header_comment] are left out.  Warnings that are
    printed are left out.  Recursion is bounded by the size of the parent table;
    beyond that python's own recursion limit is reached. *)
From Coq Require Import String Ascii List NArith ZArith Bool.
From Verif Require Import PyBase StarBlockModel ScanModel.
Import ListNotations.

Inductive standard := StdNone | StdCif | StdDic.
Inductive scope := Instance | Dictionary.

(** namedtuple PC (224) *)
Record pc := PC { pc_id : str; pc_parent : option str }.

Record coll := Coll {
  c_dict : list (str * block);     (* self.dictionary *)
  c_lower : list str;              (* self.lower_keys *)
  c_child : list (str * pc);       (* self.child_table *)
  c_vis : list str;                (* self.visible_keys *)
  c_order : list str;              (* self.block_input_order *)
  c_std : standard;                (* self.standard *)
  c_scope : scope;                 (* self.scoping *)
  c_uni : bool;                    (* self.characterset == 'unicode' *)
  c_gram : grammar                 (* self.grammar *)
}.

Definition set_dict d c := Coll d (c_lower c) (c_child c) (c_vis c) (c_order c) (c_std c) (c_scope c) (c_uni c) (c_gram c).
Definition set_lower l c := Coll (c_dict c) l (c_child c) (c_vis c) (c_order c) (c_std c) (c_scope c) (c_uni c) (c_gram c).
Definition set_child t c := Coll (c_dict c) (c_lower c) t (c_vis c) (c_order c) (c_std c) (c_scope c) (c_uni c) (c_gram c).
Definition set_vis v c := Coll (c_dict c) (c_lower c) (c_child c) v (c_order c) (c_std c) (c_scope c) (c_uni c) (c_gram c).
Definition set_corder o c := Coll (c_dict c) (c_lower c) (c_child c) (c_vis c) o (c_std c) (c_scope c) (c_uni c) (c_gram c).

Definition smem : str -> list str -> bool := mem str_eqb.

(** __init__ without a data source (217-241). *)
Definition new_coll (sd : standard) (sc : scope) (uni : bool) : coll :=
  Coll [] [] [] [] [] sd sc uni G20.

(** __getitem__ (302-310), for text keys; the dictionary access itself may fail. *)
Definition c_get (key : str) (c : coll) : outcome block :=
  if smem (lower key) (c_lower c) then
    match dget str_eqb (lower key) (c_dict c) with Some b => Ret b | None => Raise KeyErr end
  else Raise KeyErr.

(** __contains__ (341-346), keys (354-355). *)
Definition c_has (key : str) (c : coll) : bool := smem (lower key) (c_vis c).
Definition c_keys (c : coll) : list str := c_vis c.

(** [a[0] for a in self.child_table.items() if a[1].parent == p] *)
Definition opt_eqb (a b : option str) : bool :=
  match a, b with
  | Some x, Some y => str_eqb x y
  | None, None => true
  | _, _ => false
  end.
Definition with_parent (p : option str) (t : list (str * pc)) : list str :=
  map fst (filter (fun a => opt_eqb (pc_parent (snd a)) p) t).

(** Setting the attribute [scoping] (286-295). *)
Definition set_scope (s : scope) (c : coll) : coll :=
  Coll (c_dict c) (c_lower c) (c_child c)
       (match s with Dictionary => c_lower c | Instance => with_parent None (c_child c) end)
       (c_order c) (c_std c) s (c_uni c) (c_gram c).

(** A sequence of deletions; the first error ends it. *)
Fixpoint del_all (del : str -> coll -> coll * outcome unit) (l : list str) (c : coll) : coll * outcome unit :=
  match l with
  | [] => (c, Ret tt)
  | k :: r => match del k c with
              | (c', Raise e) => (c', Raise e)
              | (c', Ret _) => del_all del r c'
              end
  end.

(** The part of __delitem__ after the children (323-330).  [visible_keys] is a list,
    so that a hidden key raises ValueError, which is not caught. *)
Definition del_one (k : str) (c : coll) : coll * outcome unit :=
  if negb (dmem str_eqb k (c_dict c)) then (c, Raise KeyErr) else
  let c := set_dict (ddel str_eqb k (c_dict c)) c in
  if negb (dmem str_eqb k (c_child c)) then (c, Raise KeyErr) else
  let c := set_child (ddel str_eqb k (c_child c)) c in
  if negb (smem k (c_vis c)) then (c, Raise ValueErr) else
  let c := set_vis (remove1 str_eqb k (c_vis c)) c in
  if negb (smem k (c_lower c)) then (c, Raise KeyErr) else
  let c := set_lower (remove1 str_eqb k (c_lower c)) c in
  if negb (smem k (c_order c)) then (c, Raise ValueErr) else
  (set_corder (remove1 str_eqb k (c_order c)) c, Ret tt).

(** __delitem__ (316-330). *)
Fixpoint del_go (fuel : nat) (key : str) (c : coll) : coll * outcome unit :=
  match fuel with
  | O => (c, Raise RecursionErr)
  | Datatypes.S f =>
      match c_get key c with
      | Raise e => (c, Raise e)
      | Ret _ =>
          match del_all (del_go f) (with_parent (Some (lower key)) (c_child c)) c with
          | (c', Raise e) => (c', Raise e)
          | (c', Ret _) => del_one (lower key) c'
          end
      end
  end.
Definition c_del (key : str) (c : coll) : coll * outcome unit :=
  del_go (Datatypes.S (length (c_child c))) key c.

(** is_child_of_parent (453-463). *)
Fixpoint any_of (f : str -> outcome bool) (l : list str) : outcome bool :=
  match l with
  | [] => Ret false
  | x :: r => obind (f x) (fun t => if t then Ret true else any_of f r)
  end.
Fixpoint child_go (fuel : nat) (t : list (str * pc)) (parent name : str) : outcome bool :=
  match fuel with
  | O => Raise RecursionErr
  | Datatypes.S f =>
      let more := with_parent (Some (lower parent)) t in
      if smem (lower name) more then Ret true
      else any_of (fun ch => child_go f t ch name) more
  end.
Definition is_child_of_parent (parent name : str) (c : coll) : outcome bool :=
  child_go (Datatypes.S (length (c_child c))) (c_child c) parent name.

(** A list comprehension with a condition that may raise. *)
Fixpoint filter_ok {A} (f : A -> outcome bool) (l : list A) : outcome (list A) :=
  match l with
  | [] => Ret []
  | x :: r => obind (f x) (fun t => obind (filter_ok f r) (fun r' => Ret (if t then x :: r' else r')))
  end.

(** [sort] on texts: by code points; insertion sort. *)
Fixpoint str_leb (a b : str) : bool :=
  match a, b with
  | [], _ => true
  | _ :: _, [] => false
  | x :: a', y :: b' => (x <? y)%N || ((x =? y)%N && str_leb a' b')
  end.
Fixpoint insert_sorted (x : str) (l : list str) : list str :=
  match l with
  | [] => [x]
  | y :: r => if str_leb x y then x :: l else y :: insert_sorted x r
  end.
Definition sort_strs (l : list str) : list str := fold_right insert_sorted [] l.

(** get_child_list (447-451). *)
Definition get_child_list (parent : str) (c : coll) : outcome (list str) :=
  obind (filter_ok (fun k => is_child_of_parent (lower parent) k c) (map fst (c_child c)))
        (fun l => Ret (sort_strs l)).

(** get_parent (402-414): keys of a dictionary are distinct, so there is at most one. *)
Definition get_parent (name : str) (c : coll) : outcome (option str) :=
  match dget str_eqb (lower name) (c_child c) with
  | Some p => Ret (pc_parent p)
  | None => Raise StarErr
  end.

(** get_immediate_children (442-445), the keys. *)
Definition immediate_children (parent : str) (c : coll) : list str :=
  with_parent (Some (lower parent)) (c_child c).

(** get_children (420-440): the table of children and the keys of the new
    collection.  The block's printed name, not its key, is passed to
    is_child_of_parent. *)
Definition get_children (name : str) (include_parent : bool) (sc : scope) (c : coll) : outcome coll :=
  let k := lower name in
  obind (filter_ok (fun a : str * pc => is_child_of_parent k (pc_id (snd a)) c) (c_child c)) (fun proto =>
  let t := if include_parent then proto
           else map (fun a => if opt_eqb (pc_parent (snd a)) (Some k) then (fst a, PC (pc_id (snd a)) None) else a) proto in
  let fetch := fix fetch (l : list str) : outcome (list (str * block)) :=
    match l with
    | [] => Ret []
    | x :: r => match dget str_eqb x (c_dict c) with
                | None => Raise KeyErr
                | Some b => obind (fetch r) (fun d => Ret ((x, b) :: d))
                end
    end in
  obind (fetch (map fst proto)) (fun d =>
  let n := new_coll StdCif sc false in
  if include_parent then
    match dget str_eqb k (c_child c), dget str_eqb k (c_dict c) with
    | Some p, Some b =>
        Ret (set_scope sc (Coll (dset str_eqb k b d)
               (if smem k (map fst proto) then map fst proto else map fst proto ++ [k])
               (dset str_eqb k (PC (pc_id p) None) t) [] [] StdCif sc false G20))
    | _, _ => Raise KeyErr
    end
  else Ret (set_scope sc (Coll d (map fst proto) t [] [] StdCif sc false G20)))).

(** set_parent (465-476). *)
Definition set_parent (parent child : str) (c : coll) : coll * outcome unit :=
  if negb (smem (lower parent) (c_lower c)) then (c, Raise KeyErr)
  else if negb (smem (lower child) (c_lower c)) then (c, Raise KeyErr)
  else match dget str_eqb (lower child) (c_child c) with
       | None => (c, Raise KeyErr)
       | Some old =>
           (set_scope (c_scope c)
              (set_child (dset str_eqb (lower child) (PC (pc_id old) (Some (lower parent))) (c_child c)) c), Ret tt)
       end.

(** [while k in keys: k = k + '+'] (549, 552, 713, 719). *)
Fixpoint fresh_go (fuel : nat) (k : str) (keys : list str) : outcome str :=
  if smem k keys then
    match fuel with
    | O => Raise OutOfFuel
    | Datatypes.S f => fresh_go f (k ++ [43%N]) keys
    end
  else Ret k.
Definition fresh_key (k : str) (keys : list str) : outcome str := fresh_go (length keys) k keys.

(** [self.child_table.update(dict([(a[0],PC(a[1].block_id,newname)) for a in ...]))]:
    the entries with this parent get another one (595-597). *)
Definition repoint (old new : str) (t : list (str * pc)) : list (str * pc) :=
  map (fun a => if opt_eqb (pc_parent (snd a)) (Some old) then (fst a, PC (pc_id (snd a)) (Some new)) else a) t.

(** [l[i:i] = [x]] *)
Definition insert_at {A} (i : nat) (x : A) (l : list A) : list A := firstn i l ++ x :: skipn i l.

(** _rekey (586-605); [block_id] is [None] for the default ''. *)
Definition rekey (old new : str) (block_id : option str) (c : coll) : coll * outcome unit :=
  match c_get old c with
  | Raise e => (c, Raise e)
  | Ret b =>
      let visible := smem old (c_vis c) in
      match dget str_eqb old (c_child c) with
      | None => (c, Raise KeyErr)
      | Some info =>
          let c1 := set_child (repoint old new (c_child c)) c in
          match index_of str_eqb old (c_order c1) with
          | None => (c1, Raise ValueErr)
          | Some pos =>
              match c_del old c1 with
              | (c2, Raise e) => (c2, Raise e)
              | (c2, Ret _) =>
                  let c3 := set_dict (dset str_eqb new b (c_dict c2)) c2 in
                  let c4 := set_lower (if smem new (c_lower c3) then c_lower c3 else c_lower c3 ++ [new]) c3 in
                  let c5 := set_corder (insert_at pos new (c_order c4)) c4 in
                  let e := match block_id with None => info | Some i => PC i (pc_parent info) end in
                  let c6 := set_child (dset str_eqb new e (c_child c5)) c5 in
                  (if visible then set_vis (c_vis c6 ++ [new]) c6 else c6, Ret tt)
              end
          end
      end
  end.

(** rename (607-616). *)
Definition rename (old new : str) (c : coll) : coll * outcome unit :=
  if smem (lower new) (c_lower c) then (c, Raise StarErr)
  else if negb (smem (lower old) (c_lower c)) then (c, Raise KeyErr)
  else rekey (lower old) (lower new) (match new with [] => None | _ => Some new end) c.

(** The end of NewBlock, once the key is settled (560-576). *)
Definition add_block (k name : str) (parent : option str) (b : block) (c : coll) : coll :=
  let c := set_dict (dset str_eqb k b (c_dict c)) c in
  let c := set_lower (if smem k (c_lower c) then c_lower c else c_lower c ++ [k]) c in
  let c := set_corder (c_order c ++ [k]) c in
  let c := match parent with
           | None => set_vis (c_vis c ++ [k]) (set_child (dset str_eqb k (PC name None) (c_child c)) c)
           | Some p =>
               if smem (lower p) (c_lower c) then
                 let c := set_child (dset str_eqb k (PC name (Some (lower p))) (c_child c)) c in
                 match c_scope c with Instance => c | Dictionary => set_vis (c_vis c ++ [k]) c end
               else c
           end in
  set_dict (dset str_eqb k (set_characterset (c_uni c) b) (c_dict c)) c.

Definition fix_name (fix_it : bool) (n : str) : str :=
  if fix_it then map (fun x => if (x =? 32)%N || (x =? 9)%N then 95%N else x) n else n.

(** NewBlock (526-576); the returned key. *)
Definition new_block (name : str) (b : block) (fix_it : bool) (parent : option str) (c : coll) : coll * outcome str :=
  match (match c_std c with StdCif => setmaxnamelength 75 b | _ => (b, Ret tt) end) with
  | (_, Raise e) => (c, Raise e)
  | (b, Ret _) =>
      if Nat.ltb 75 (length name) then (c, Raise StarErr) else
      let name' := fix_name fix_it name in
      let k := lower name' in
      if smem k (c_lower c) then
        match c_std c with
        | StdNone =>
            match c_del k c with
            | (c', Raise e) => (c', Raise e)
            | (c', Ret _) => (add_block k name' parent b c', Ret k)
            end
        | _ =>
            let top := with_parent None (c_child c) in
            match parent with
            | None =>
                if smem k top then (c, Raise StarErr)
                else match fresh_key k (c_lower c) with
                     | Raise e => (c, Raise e)
                     | Ret k' => (add_block k' name' None b c, Ret k')
                     end
            | Some p =>
                if smem k top then
                  match fresh_key k (c_lower c) with
                  | Raise e => (c, Raise e)
                  | Ret k' =>
                      match rekey k k' None c with
                      | (c', Raise e) => (c', Raise e)
                      | (c', Ret _) =>
                          (add_block k name' (Some (if str_eqb (lower p) k then k' else p)) b c', Ret k)
                      end
                  end
                else (c, Raise StarErr)
            end
        end
      else (add_block k name' parent b c, Ret k)
  end.

(** clear (367-372). *)
Definition c_clear (c : coll) : coll :=
  Coll [] [] [] [] [] (c_std c) (c_scope c) (c_uni c) (c_gram c).

(** set_characterset (250-255) and lock/unlock (258-266): every block. *)
Definition c_set_characterset (uni : bool) (c : coll) : coll :=
  Coll (map (fun kb => if smem (fst kb) (c_lower c) then (fst kb, set_characterset uni (snd kb)) else kb) (c_dict c))
       (c_lower c) (c_child c) (c_vis c) (c_order c) (c_std c) (c_scope c) uni (c_gram c).
Definition c_set_overwrite (ov : bool) (c : coll) : coll :=
  set_dict (map (fun kb => if smem (fst kb) (c_lower c) then (fst kb, set_overwrite ov (snd kb)) else kb) (c_dict c)) c.
Definition c_set_grammar (g : grammar) (c : coll) : coll :=
  Coll (c_dict c) (c_lower c) (c_child c) (c_vis c) (c_order c) (c_std c) (c_scope c) (c_uni c) g.

(** Operations on a collection, for histories. *)
Inductive cop :=
| KNew (name : str) (b : block) (fix_it : bool) (parent : option str)
| KDel (key : str)
| KRename (old new : str)
| KParent (parent child : str)
| KScope (s : scope)
| KClear
| KCharset (uni : bool)
| KOverwrite (ov : bool)
| KGrammar (g : grammar).
Definition run_cop (o : cop) (c : coll) : coll * outcome unit :=
  match o with
  | KNew n b f p => match new_block n b f p c with (c', Ret _) => (c', Ret tt) | (c', Raise e) => (c', Raise e) end
  | KDel k => c_del k c
  | KRename a b => rename a b c
  | KParent p k => set_parent p k c
  | KScope s => (set_scope s c, Ret tt)
  | KClear => (c_clear c, Ret tt)
  | KCharset un => (c_set_characterset un c, Ret tt)
  | KOverwrite ov => (c_set_overwrite ov c, Ret tt)
  | KGrammar g => (c_set_grammar g c, Ret tt)
  end.
(** A caller that goes on after errors. *)
Fixpoint run_cops (os : list cop) (c : coll) : coll :=
  match os with
  | [] => c
  | o :: r => run_cops r (fst (run_cop o c))
  end.

(** merge_fast (686-729).  [parent] is the key of the parent block, found there by
    identity of the block object (696-700). *)
Fixpoint merge_dups (dups : list str) (parent : option str) (c n : coll) : coll * coll * outcome (option str) :=
  match dups with
  | [] => (c, n, Ret parent)
  | k :: r =>
      match dget str_eqb k (c_child c), dget str_eqb k (c_child n) with
      | Some ours, Some theirs =>
          let rename_ours :=
            match pc_parent ours, pc_parent theirs, parent with
            | _, _, Some _ => true
            | None, Some _, None => true
            | _, _, _ => false
            end in
          let rename_theirs :=
            match pc_parent ours, pc_parent theirs, parent with
            | Some _, None, None => true
            | _, _, _ => false
            end in
          if rename_ours then
            match fresh_key k (c_lower c) with
            | Raise e => (c, n, Raise e)
            | Ret k' =>
                match rekey k k' None c with
                | (c', Raise e) => (c', n, Raise e)
                | (c', Ret _) =>
                    match parent with
                    | None => (c', n, Raise AttributeErr)     (* None.lower() *)
                    | Some p => merge_dups r (Some (if str_eqb (lower p) k then k' else p)) c' n
                    end
                end
            end
          else if rename_theirs then
            match fresh_key k (c_lower n) with
            | Raise e => (c, n, Raise e)
            | Ret k' =>
                match rekey k k' None n with
                | (n', Raise e) => (c, n', Raise e)
                | (n', Ret _) => merge_dups r parent c n'
                end
            end
          else (c, n, Raise StarErr)
      | _, _ => (c, n, Raise KeyErr)
      end
  end.
(** [d.update(e)] and [s.update(t)] *)
Definition dupdate {V} (d e : list (str * V)) : list (str * V) :=
  fold_left (fun d kv => dset str_eqb (fst kv) (snd kv) d) e d.
Definition supdate (s t : list str) : list str :=
  fold_left (fun s k => if smem k s then s else s ++ [k]) t s.
Definition reparent (p : str) (t : list (str * pc)) : list (str * pc) :=
  map (fun a => (fst a, PC (pc_id (snd a)) (Some p))) (filter (fun a => opt_eqb (pc_parent (snd a)) None) t).
Definition merge_fast (parent : option str) (n c : coll) : coll * outcome unit :=
  let dups := filter (fun k => smem k (c_lower n)) (c_lower c) in
  match (match c_std c with StdNone => (c, n, Ret parent) | _ => merge_dups dups parent c n end) with
  | (c', _, Raise e) => (c', Raise e)
  | (c', n', Ret parent') =>
      let t := dupdate (c_child c') (c_child n') in
      (Coll (dupdate (c_dict c') (c_dict n'))
            (supdate (c_lower c') (c_lower n'))
            (match parent' with None => t | Some p => dupdate t (reparent (lower p) (c_child n')) end)
            (c_vis c' ++ c_lower n')
            (c_order c' ++ c_order n')
            (c_std c') (c_scope c') (c_uni c') (c_gram c'), Ret tt)
  end.

(** WriteOut (837-896), grammars 1.0, 1.1 and 2.0: the sections in the order they
    are written.  With standard Dic the contents of a data block are printed in two
    parts, around its save frames. *)
Inductive wsec :=
| WHead (key : str)              (* data_ heading *)
| WFrame (key : str)             (* save_ heading, contents, save_ *)
| WBody (key : str)              (* contents of the data block *)
| WBodyTo (key : str)            (* ... up to _dictionary_valid.application *)
| WBodyFrom (key : str).         (* ... from there on *)
Fixpoint top_blocks (order : list str) (t : list (str * pc)) : outcome (list str) :=
  match order with
  | [] => Ret []
  | k :: r => match dget str_eqb k t with
              | None => Raise KeyErr
              | Some p => obind (top_blocks r t) (fun l =>
                          Ret (match pc_parent p with None => k :: l | Some _ => l end))
              end
  end.
Fixpoint write_tops (tops : list str) (c : coll) : outcome (list wsec) :=
  match tops with
  | [] => Ret []
  | k :: r =>
      obind (filter_ok (fun a => is_child_of_parent k a c) (c_order c)) (fun ch =>
      obind (write_tops r c) (fun rest =>
      let frames := map WFrame ch in
      Ret (WHead k ::
           match c_std c with
           | StdDic => WBodyTo k :: frames ++ [WBodyFrom k]
           | _ => frames ++ [WBody k]
           end ++ rest)))
  end.
Definition write_plan (c : coll) : outcome (list wsec) :=
  obind (top_blocks (c_order c) (c_child c)) (fun tops => write_tops tops c).

(** STAR2: nested save frames (872-877, 898-911), written as nested sections. *)
Inductive nsec := NFrame (key : str) (inner : list nsec).
Fixpoint nest_go (fuel : nat) (t : list (str * pc)) (k : str) : outcome (list nsec) :=
  match fuel with
  | O => Raise RecursionErr
  | Datatypes.S f =>
      (fix go (l : list str) : outcome (list nsec) :=
         match l with
         | [] => Ret []
         | ch :: r => obind (nest_go f t ch) (fun inner => obind (go r) (fun rest => Ret (NFrame ch inner :: rest)))
         end) (with_parent (Some k) t)
  end.
