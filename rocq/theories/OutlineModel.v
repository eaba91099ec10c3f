(** Model of the order in which a DDLm dictionary is written: get_full_child_list,
    cat_from_name and recurse_child_list (src/CifFile_module.nw 3446-3503).  The
    messages printed are left out.  No proofs here. *)
From Coq Require Import String Ascii List NArith Bool.
From Verif Require Import PyBase StarBlockModel CollectionModel ValidateModel TreeModel.
Import ListNotations.

(** The dictionary: its data block, and its definitions with the name of the block (in
    lower case), the definition id and the attributes.  The keys of child_table are the
    names, self.keys() are the ids. *)
Record book := mkBook { bk_top : str; bk_top_table : table; bk_defs : list (str * str * table) }.
Definition bk_names (b : book) : list str := bk_top b :: map (fun e => fst (fst e)) (bk_defs b).
Definition id_table (b : book) : defs := map (fun e => (snd (fst e), snd e)) (bk_defs b).
Definition name_table (b : book) : list (str * table) := (bk_top b, bk_top_table b) :: map (fun e => (fst (fst e), snd e)) (bk_defs b).
(** self[a], 1157-1169, without imports. *)
Definition lookup (b : book) (a : str) : outcome table :=
  match dget str_eqb (lower a) (id_table b) with
  | Some t => Ret t
  | None => match dget str_eqb (lower a) (name_table b) with Some t => Ret t | None => Raise KeyErr end
  end.
(** .get('_definition.scope','Item') == s *)
Definition scope_is (s : string) (t : table) : bool :=
  match tget a_scope t with None => str_eqb (u "Item") (u s) | o => veq_text o (u s) end.
Definition with_scope (b : book) (s : string) (l : list str) : outcome (list str) :=
  filterM (fun a => obind (lookup b a) (fun t => Ret (scope_is s t))) l.
Fixpoint concatM (f : str -> outcome (list str)) (l : list str) : outcome (list str) :=
  match l with
  | [] => Ret []
  | x :: r => obind (f x) (fun y => obind (concatM f r) (fun z => Ret (y ++ z)))
  end.
(** recurse_child_list, 3491-3502; n bounds the depth. *)
Fixpoint recurse (n : nat) (b : book) (p : str) : outcome (list str) :=
  match n with
  | O => Raise OutOfFuel
  | Datatypes.S n' =>
      obind (filterM (fun a => obind (lookup b a) (fun t => obind (cat_of t) (fun c => Ret (str_eqb c (lower p))))) (bk_names b)) (fun kids =>
      let kids := sort_strs kids in
      obind (with_scope b "Item" kids) (fun items =>
      obind (with_scope b "Category" kids) (fun cats =>
      obind (concatM (recurse n' b) cats) (fun below => Ret (p :: items ++ below)))))
  end.
(** [l.remove(x) for x in xs] *)
Fixpoint remove_each (xs l : list str) : outcome (list str) :=
  match xs with
  | [] => Ret l
  | x :: r => if smem x l then remove_each r (remove1 str_eqb x l) else Raise ValueErr
  end.
(** self[n]['_name.category_id'].lower() *)
Definition cat_id (b : book) (a : str) : outcome str :=
  obind (lookup b a) (fun t =>
  match tget a_category t with Some (VStr s) => Ret (lower s) | Some _ => Raise AttributeErr | None => Raise KeyErr end).
(** 3463-3469: the definitions outside that are categories, with their children. *)
Fixpoint outside_cats (b : book) (unrooted todo remaining all : list str) : outcome (list str * list str) :=
  match todo with
  | [] => Ret (remaining, all)
  | k :: r =>
      obind (lookup b k) (fun t =>
      if scope_is "Category" t then
        obind (remove_each [k] remaining) (fun rem1 =>
        obind (filterM (fun a => obind (cat_id b a) (fun c => Ret (str_eqb c (lower k)))) unrooted) (fun kids =>
        obind (remove_each kids rem1) (fun rem2 => outside_cats b unrooted r rem2 (all ++ [k] ++ kids))))
      else outside_cats b unrooted r remaining all)
  end.
(** cat_from_name, 3484-3489 *)
Fixpoint split_dot (s : str) : list str :=
  match s with
  | [] => [[]]
  | c :: r => if (c =? 46)%N then [] :: split_dot r
              else match split_dot r with [] => [[c]] | p :: t => (c :: p) :: t end
  end.
Definition cat_from_name (a : str) : outcome str :=
  match split_dot a with
  | [c; _] => match c with [] => Raise IndexErr | x :: r => Ret (if (x =? 95)%N then r else c) end
  | _ => Raise ValueErr
  end.
(** self[r].get('_name.category_id',self.cat_from_name(r)).lower(): the second argument
    is always computed. *)
Definition guess (b : book) (a : str) : outcome str :=
  obind (lookup b a) (fun t => obind (cat_from_name a) (fun g =>
  match tget a_category t with Some (VStr s) => Ret (lower s) | Some _ => Raise AttributeErr | None => Ret (lower g) end)).
Fixpoint mapM (f : str -> outcome str) (l : list str) : outcome (list str) :=
  match l with [] => Ret [] | x :: r => obind (f x) (fun y => obind (mapM f r) (fun z => Ret (y :: z))) end.
Fixpoint distinct (l : list str) : list str :=
  match l with [] => [] | x :: r => if smem x r then distinct r else x :: distinct r end.
(** 3472-3475 *)
Fixpoint by_category (b : book) (cats remaining all : list str) : outcome (list str * list str) :=
  match cats with
  | [] => Ret (remaining, all)
  | e :: r =>
      obind (filterM (fun a => obind (guess b a) (fun g => Ret (str_eqb g e))) remaining) (fun items =>
      obind (remove_each items remaining) (fun rem => by_category b r rem (all ++ items)))
  end.
(** 3452-3482; [ord] is the order of a python set. *)
Definition full_child_list (n : nat) (ord : list str -> list str) (b : book) : outcome (list str) :=
  match filter (fun kt => is_head (snd kt)) (id_table b) with
  | [(root, _)] =>
      obind (recurse n b root) (fun inside =>
      let all := bk_top b :: inside in
      obind (danglers n (id_table b)) (fun loose =>
      let unrooted := ord loose in
      if existsb (fun a => smem a all) unrooted then Raise CifErr
      else
        obind (outside_cats b unrooted unrooted unrooted all) (fun x =>
        obind (mapM (guess b) (fst x)) (fun gs =>
        obind (by_category b (ord (distinct gs)) (fst x) (snd x)) (fun y => Ret (snd y ++ fst y))))))
  | _ => Raise ValueErr
  end.
