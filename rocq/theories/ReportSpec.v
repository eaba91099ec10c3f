(** What validating a file and reporting about it should do. *)
From Coq Require Import String Ascii List NArith ZArith Bool Permutation.
From Verif Require Import PyBase StarBlockModel StarBlockSpec ValidateModel ValidBlockModel ReportModel.
Import ListNotations.

(** The block [b'] is [b] with only the items that the dictionary knows. *)
Record only_known (d : vdic) (b b' : block) : Prop := mkOK {
  k_wf : WF b';
  k_keys : b_keys b' = filter (v_in d) (b_keys b);
  k_values : forall k, v_in d (lower k) = true -> get_item k b' = get_item k b;
  k_gone : forall k, v_in d (lower k) = false -> has_key k b' = false;
  (* loops keep their order of columns, and go when they have none left *)
  k_loops : forall no cols, In (no, cols) (b_loops b') <->
    exists cols0, In (no, cols0) (b_loops b) /\ cols = filter (v_in d) cols0 /\ (cols <> [] \/ cols0 = [])
}.
(** Names are looked up ignoring case. *)
Definition blind (d : vdic) : Prop := forall k k', lower k = lower k' -> v_in d k = v_in d k'.
Definition unknown (d : vdic) (b : block) (l : list str) : Prop :=
  NoDup l /\ forall k, In k l <-> In k (b_keys b) /\ v_in d k = false.

(** [x] stands somewhere in [s]. *)
Definition within (x s : str) : Prop := exists a b, s = a ++ x ++ b.
(** The failed checks of a block: check, item and what was found. *)
Definition failures (es : errors) : list (str * str * err) :=
  flat_map (fun it => map (fun ce => (fst ce, fst it, snd ce)) (snd it)) es.
Definition table_failures (ts : list (str * rows)) : list (str * str * err) :=
  flat_map (fun t => map (fun r => (fst t, fst r, snd r)) (snd t)) ts.

Section Shown.
Context (repr_ str_ : value -> str) (str_list : list str -> str).
(** The row of a failed check shows the item and all that was found. *)
Definition row_shows (html : bool) (r : str * err) (line : str) : Prop :=
  exists rest, line = (if html then u "<tr><td><tt>" else [10%N]) ++ fst r ++ rest
  /\ (forall v, e_values (snd r) = Some v -> if html then within (str_ v) rest
        else exists l, iterate v = Ret l /\ within (str_list (map (fun a => firstn 50 (repr_ a)) l)) rest)
  /\ (forall v, e_items (snd r) = Some v \/ e_child (snd r) = Some v \/ e_parent (snd r) = Some v -> within (if html then str_ v else repr_ v) rest).
(** One table: the explanation of its check and then one row for each failure. *)
Definition table_shows (html : bool) (t : str * rows) (s : str) : Prop :=
  exists expl intro lines outro, In (fst t, expl) info_table /\ s = intro ++ concat lines ++ outro /\ within expl intro /\ Forall2 (row_shows html) (snd t) lines.
(** The part about one block: its verdict, the names that were not found, and tables
    by kind of failure.  In HTML a valid block of a long list is not mentioned. *)
Definition silent (html long ok : bool) (un : list str) : Prop := html = true /\ long = true /\ ok = true /\ un = [].
Definition verdict (name : str) (ok : bool) : str := u "Block '" ++ name ++ (if ok then u "' is VALID" else u "' is INVALID").
Definition block_shows (html long : bool) (nm : no_matches) (b : str * (bool * errors)) (s : str) : Prop :=
  exists un top ts texts, In (fst b, un) nm /\ s = top ++ concat texts
  /\ (silent html long (fst (snd b)) un \/ within (verdict (fst b) (fst (snd b))) top) /\ Forall (fun k => within k top) un
  /\ NoDup (map fst ts) /\ Permutation (table_failures ts) (failures (snd (snd b)))
  /\ Forall2 (table_shows html) ts texts.
Definition report_shows (html : bool) (vr : valid_results) (nm : no_matches) (s : str) : Prop :=
  exists top parts, s = top ++ concat parts /\ Forall2 (block_shows html (Nat.ltb 10 (length vr)) nm) vr parts.
End Shown.

(** Every failed check has an explanation, and its wrong values can be listed. *)
Definition explained (es : errors) : Prop := Forall (fun x => In (fst (fst x)) (map fst info_table)) (failures es).
Definition listable (es : errors) : Prop := Forall (fun x => forall v, e_values (snd x) = Some v -> exists l, iterate v = Ret l) (failures es).

(** The topmost item of a definition: the one that is no child of another. *)
Definition topmost (names children : list str) (x : str) : Prop := In x names /\ ~ In x children /\ forall y, In y names -> ~ In y children -> y = x.
