(** Specification vocabulary for StarBlock properties (no proofs, independent of
    the operations of StarBlockModel.v). *)
From Coq Require Import String Ascii List NArith ZArith Bool Permutation.
From Verif Require Import PyBase StarBlockModel.
Import ListNotations.

(** The datanames and the loop numbers listed in an output order. *)
Definition order_names (o : list oitem) : list str :=
  flat_map (fun x => match x with ON n => [n] | OL _ => [] end) o.
Definition order_loops (o : list oitem) : list Z :=
  flat_map (fun x => match x with ON _ => [] | OL k => [k] end) o.

(** All datanames that will be printed: those at top level and those in loops. *)
Definition printed_names (b : block) : list str :=
  order_names (b_order b) ++ concat (map snd (b_loops b)).

(** Well-formed blocks: every dataname has exactly one place, every loop exactly
    one reference, case table and data table agree. *)
Record WF (b : block) : Prop := mkWF {
  wf_keys : NoDup (b_keys b);
  wf_low : forall k, In k (b_keys b) -> lower k = k;
  wf_true : Permutation (dkeys (b_true b)) (b_keys b);
  wf_case : forall k t, In (k, t) (b_true b) -> lower t = k;
  wf_place : Permutation (printed_names b) (b_keys b);
  wf_refs : Permutation (order_loops (b_order b)) (dkeys (b_loops b));
  wf_nums : NoDup (dkeys (b_loops b));
  wf_pos : forall k, In k (dkeys (b_loops b)) -> (1 <= k)%Z
}.

(** Distinct datanames, ignoring case. *)
Definition distinct_names (ns : list str) : Prop := NoDup (map lower ns).

(** Names an operation is allowed to touch. *)
Definition touched (o : op) : list str :=
  match o with
  | OAdd k _ | ORemove k => [k]
  | OCreate ns _ => ns
  | OAddToLoop _ kvs => map fst kvs
  | OAddLoopItem ns _ => ns
  | _ => []
  end.

(** Operations admitted in histories: a loop may not name a dataname twice. *)
Definition admissible (o : op) : Prop :=
  match o with
  | OCreate ns _ | OAddLoopItem ns _ => distinct_names ns
  | _ => True
  end.

(** The value a stored entry shows to a reader; every entry of a reachable block
    shows one. *)
Definition entry_val (e : value * value) : outcome value :=
  match fst e with
  | VList _ =>
      if not_none (fst e) then Ret (fst e)
      else match snd e with VNone | VNum _ => Raise TypeErr | v => Ret v end
  | s => if not_none s then Ret s else Ret (snd e)
  end.

(** A value that assignment accepts under a character set. *)
Definition acceptable_value (uni : bool) (v : value) : Prop :=
  (exists e, regularise v = Ret (v, e)) /\ check_item_value uni v = Ret tt.

(** Every item could be assigned again under the block's current settings (true
    unless the name-length limit or the character set was changed later). *)
Definition settings_current (b : block) : Prop :=
  forall k e, dget str_eqb k (b_data b) = Some e ->
    check_data_name (b_max b) (b_uni b) k = Ret tt /\
    exists v, entry_val e = Ret v /\ acceptable_value (b_uni b) v.

(** Column lengths as CreateLoop sees them. *)
Definition column_of (b : block) (n : str) (v : value) : Prop := get_item n b = Ret v.

(** CreateLoop's admission rule: all items exist and are either all columns of one
    common length, or all single values. *)
Definition same_length_columns (b : block) (names : list str) : Prop :=
  exists rows, forall n, In n names ->
    exists l, get_item n b = Ret (VList l) /\ length l = rows.
Definition all_single (b : block) (names : list str) : Prop :=
  forall n, In n names -> exists v, get_item n b = Ret v /\ is_plain_list v = false.
Definition loopable (b : block) (names : list str) : Prop :=
  same_length_columns b names \/ all_single b names.

(** What stays of a list of columns when some datanames move elsewhere. *)
Definition without (names cols : list str) : list str :=
  filter (fun c => negb (mem str_eqb c (map lower names))) cols.

(** What stays of the output order when the datanames [names] become part of a
    loop: their own entries and the loops they emptied go. *)
Definition still_listed (names : list str) (b : block) (o : oitem) : bool :=
  match o with
  | ON n => negb (mem str_eqb n (map lower names))
  | OL k => match dget Z.eqb k (b_loops b) with
            | Some cols => match without names cols with [] => false | _ => true end
            | None => true
            end
  end.

(** Loops that keep at least one column. *)
Definition alive (names : list str) (b : block) (o : oitem) : bool :=
  match o with
  | ON _ => true
  | OL k => match dget Z.eqb k (b_loops b) with
            | Some cols => match without names cols with [] => false | _ => true end
            | None => true
            end
  end.

(** The effect of a successful CreateLoop: [no] is the number of the new loop. *)
Record loop_created (names : list str) (order no : Z) (b b' : block) : Prop := mkLC {
  (* the names form one loop in the requested order *)
  lc_new : forall n, In n names -> get_loop_names n b' = Ret (map lower names);
  (* every other dataname keeps its co-looped names, minus the ones that moved *)
  lc_others : forall m, ~ In (lower m) (map lower names) ->
    get_loop_names m b' = match get_loop_names m b with
                          | Ret cols => Ret (without names cols) | Raise e => Raise e end;
  (* no loop appears or stays except the new one and old ones with columns left *)
  lc_loops : forall k cols, In (k, cols) (b_loops b') <->
    (k = no /\ cols = map lower names) \/
    (cols <> [] /\ exists cols0, In (k, cols0) (b_loops b) /\ cols = without names cols0);
  (* output order: as before, minus what moved, with the new loop at the position *)
  lc_order : exists pre post,
    filter (alive names b) (b_order b) = pre ++ post /\
    length pre = (if (0 <=? order)%Z then Nat.min (Z.to_nat order) (length (pre ++ post))
                  else length (pre ++ post)) /\
    b_order b' = filter (still_listed names b) pre ++ OL no :: filter (still_listed names b) post;
  (* columns keep their values, single values become one-row columns *)
  lc_values :
    (same_length_columns b names /\ forall n, In n names -> get_item n b' = get_item n b) \/
    (all_single b names /\
     forall n v, In n names -> get_item n b = Ret v -> get_item n b' = Ret (VList [v]));
  lc_frame : forall m, ~ In (lower m) (map lower names) -> get_item m b' = get_item m b
}.

(** Entries of the output order that stay when [key] is deleted: not the name
    itself, not a loop whose only column it is. *)
Definition listed_after (key : str) (b : block) (o : oitem) : bool :=
  match o with
  | ON n => negb (str_eqb n (lower key))
  | OL k => match dget Z.eqb k (b_loops b) with
            | Some cols => negb (mem str_eqb (lower key) cols
                                 && match without [key] cols with [] => true | _ => false end)
            | None => true
            end
  end.

(** The effect of deleting a dataname. *)
Record item_removed (key : str) (b b' : block) : Prop := mkIR {
  ir_gone : forall k, lower k = lower key -> has_key k b' = false /\ get_loop_names k b' = Raise KeyErr;
  ir_values : forall k, lower k <> lower key -> get_item k b' = get_item k b;
  ir_spelling_gone : dget str_eqb (lower key) (b_true b') = None;
  ir_spelling : forall k, k <> lower key -> dget str_eqb k (b_true b') = dget str_eqb k (b_true b);
  ir_colooped : forall k, lower k <> lower key ->
    get_loop_names k b' = match get_loop_names k b with
                          | Ret cols => Ret (without [key] cols) | Raise e => Raise e end;
  ir_loops : forall k cols, In (k, cols) (b_loops b') <->
    exists cols0, In (k, cols0) (b_loops b) /\ cols = without [key] cols0
                  /\ (In (lower key) cols0 -> cols <> []);
  ir_order : b_order b' = filter (listed_after key b) (b_order b)
}.

(** The effect of adding the existing dataname [new] to the loop of [old]. *)
Record name_looped (old new : str) (b b' : block) : Prop := mkNL {
  nl_cols : forall cols, get_loop_names old b = Ret cols ->
    forall n, In (lower n) (cols ++ [lower new]) -> get_loop_names n b' = Ret (cols ++ [lower new]);
  nl_others : forall n cols, get_loop_names old b = Ret cols -> ~ In (lower n) (cols ++ [lower new]) ->
    get_loop_names n b' = match get_loop_names n b with
                          | Ret c => Ret (without [new] c) | Raise e => Raise e end;
  nl_values : forall k, get_item k b' = get_item k b;
  nl_order : b_order b' = filter (fun o => negb (oitem_eqb (ON (lower new)) o)) (b_order b);
  nl_numbers : dkeys (b_loops b') = dkeys (b_loops b)
}.

(** No loop without columns. *)
Definition no_empty_loop (b : block) : Prop := forall k cols, In (k, cols) (b_loops b) -> cols <> [].

(** A list with [x] taken out. *)
Definition others {A} (eqb : A -> A -> bool) (x : A) (l : list A) : list A :=
  filter (fun y => negb (eqb x y)) l.

(** Two blocks that differ at most in the spelling kept for output. *)
Definition same_but_spelling (a b : block) : Prop :=
  b_data a = b_data b /\ b_loops a = b_loops b /\ b_order a = b_order b
  /\ dkeys (b_true a) = dkeys (b_true b)
  /\ b_over a = b_over b /\ b_max a = b_max b /\ b_uni a = b_uni b.

(** Operations that are not an explicit request to drop data or to unlock. *)
Definition keeps_lock (o : op) : Prop :=
  match o with ORemove _ | OClear | OOverwrite true => False | _ => True end.

(** Operations other than changing the name-length limit or the character set. *)
Definition keeps_settings (o : op) : Prop :=
  match o with OMaxName _ | OCharset _ => False | _ => True end.

(** Operations that can not empty an existing loop. *)
Definition no_loop_shrink (o : op) : Prop :=
  match o with
  | OAddLoopName _ _ | OAddToLoop _ _ => False
  | OCreate ns _ | OAddLoopItem ns _ => ns <> []
  | _ => True
  end.

(** Position that [list.insert] uses in a list of [n] elements. *)
Definition insert_position (n : nat) (pos : Z) : nat :=
  if (pos <? 0)%Z then Z.to_nat (Z.max 0 (pos + Z.of_nat n)) else Nat.min n (Z.to_nat pos).

(** [l'] is [l] with [x] moved to position [pos] and nothing else changed. *)
Definition moved {A} (eqb : A -> A -> bool) (x : A) (pos : Z) (l l' : list A) : Prop :=
  Permutation l' l /\ others eqb x l' = others eqb x l /\
  nth_error l' (insert_position (length l - 1) pos) = Some x.

(** Characters of the CIF 1.x character set, by code point. *)
Definition printing_ascii (c : N) : Prop := (33 <= c <= 126)%N.
Definition cif1_text_char (c : N) : Prop := c = 9%N \/ c = 10%N \/ c = 13%N \/ (32 <= c <= 126)%N.

(** Unicode characters that CIF2/STAR2 datanames exclude: below "!", 127-159,
    surrogates and the noncharacters. *)
Definition noncharacter (c : N) : Prop :=
  (0xFDD0 <= c <= 0xFDEF)%N \/ N.land c 0xFFFE = 0xFFFE%N.
Definition unicode_name_char (c : N) : Prop :=
  (33 <= c)%N /\ ~ (127 <= c <= 159)%N /\ ~ (0xD800 <= c <= 0xDFFF)%N /\ ~ noncharacter c.
Definition unicode_text_char (c : N) : Prop :=
  cif1_text_char c \/
  ((160 <= c <= 0x10FFFD)%N /\ ~ (0xD800 <= c <= 0xDFFF)%N /\ ~ (0xFDD0 <= c <= 0xFDEF)%N
   /\ c <> 0xFFFE%N /\ c <> 0xFFFF%N).
Definition text_char (un : bool) (c : N) : Prop := if un then unicode_text_char c else cif1_text_char c.
