(** Categories that are built from others (DeriveModel), in the terms of PullbackSpec. *)
From Coq Require Import String Ascii List NArith ZArith Bool PeanoNat Lia Permutation.
From Verif Require Import PyBase PyFacts StarBlockModel StarBlockSpec StarBlockProofs2 StarBlockProofs4 LoopModel LoopSpec LoopProofs ValidateModel TreeModel KeyModel DeriveModel DeriveSpec DeriveProofs DeriveProofs2 DeriveProofs5 DeriveProofs6 PullbackSpec PullbackProofs PullbackProofs2 PullbackProofs3 DeriveSpec2 DeriveProofs7.
Import ListNotations.
Open Scope string_scope. Open Scope list_scope. Open Scope nat_scope.

(** ** Dictionaries and blocks for the examples *)
Definition t (s : string) : value := VStr (u s).
Definition tl (l : list string) : value := VList (map t l).
Definition attrs (l : list (string * value)) : table := map (fun av => (u (fst av), snd av)) l.
Definition item (cat obj : string) : str * table :=
  (u (String.append "_" (String.append cat (String.append "." obj))), attrs [("_definition.id", t (String.append "_" (String.append cat (String.append "." obj)))); ("_name.category_id", t cat); ("_name.object_id", t obj)]).
Definition category (name key : string) (more : list (string * value)) : str * table :=
  (lower (u name), attrs ([("_definition.id", t name); ("_definition.scope", t "Category"); ("_definition.class", t "Loop"); ("_name.category_id", t "top"); ("_name.object_id", t name); ("_category.key_id", t key)] ++ more)).
Definition method_table (l : list (string * list prog)) (k : str) : list prog :=
  match find (fun a => str_eqb (u (fst a)) k) l with Some (_, p) => p | None => [] end.
(** The table of objects is the one that the dictionary computes (KeyModel). *)
Definition objects (l : defs) (c o : str) : outcome str :=
  obind (cat_obj_table 10 l) (fun x => match dget pair_eqb (c, o) x with Some (n :: _) => Ret n | _ => Raise KeyErr end).
Definition dict (l : defs) : ddict := mkDD l (fun _ => []) (fun _ v => Ret v) (objects l) (fun l => l) Ret.
Definition block_of (l : list (string * value)) : block := run_ops (map (fun kv => OAdd (u (fst kv)) (snd kv)) l) (empty_block true 0 false).
Definition ask_in (d : ddict) : str -> act value := read 30 d true false.
Definition bonds : list (string * value) := [("_category_construct_local.type", t "Pullback"); ("_category_construct_local.components", tl ["_a.type"; "_c.type"]); ("_category_construct_local.new_ids", tl ["id_a"; "id_c"])].
Definition chosen (vals : list string) : list (string * value) := [("_category_construct_local.type", t "Filter"); ("_category_construct_local.components", tl ["_a.type"]); ("_category_construct_local.new_ids", tl ["id"]); ("_category_construct_local.text_filter", tl vals)].
Definition ac : defs := [category "a" "_a.id" []; item "a" "id"; item "a" "type"; item "a" "label"; category "c" "_c.id" []; item "c" "id"; item "c" "type"; item "c" "mass"].
Definition pairs : defs := ac ++ [category "p" "_p.id_a" bonds; item "p" "id_a"; item "p" "id_c"; item "p" "label"; item "p" "mass"].
Definition selection : defs := ac ++ [category "s" "_s.id" (chosen ["1"]); item "s" "id"; item "s" "label"].
Definition data : block := block_of [("_a.id", tl ["A"; "B"; "C"]); ("_a.type", tl ["1"; "2"; "1"]); ("_a.label", tl ["la"; "lb"; "lc"]);
  ("_c.id", tl ["X"; "Y"]); ("_c.type", tl ["1"; "1"]); ("_c.mass", tl ["mx"; "my"])].
Definition side_a (new full : string) (cs : list copied) : side :=
  mkSide (u "_a.type") (u new) (u full) (u "a") (u "_a.id") (map t ["1"; "2"; "1"]) (map t ["A"; "B"; "C"]) cs.
Definition label_of (to : string) : copied := mkCopied (u "label") (u "_a.label") (u to) (map t ["la"; "lb"; "lc"]).
Definition side_c : side := mkSide (u "_c.type") (u "id_c") (u "_p.id_c") (u "c") (u "_c.id") (map t ["1"; "1"]) (map t ["X"; "Y"]) [mkCopied (u "mass") (u "_c.mass") (u "_p.mass") (map t ["mx"; "my"])].
Lemma texts_unique l : NoDup l -> unique (map t l).
Proof.
  intros N i j x y X Y. rewrite nth_error_map in X, Y. destruct (nth_error l i) as [a|] eqn:A; [|discriminate]. destruct (nth_error l j) as [c|] eqn:B; [|discriminate]. cbn [option_map] in X, Y. injection X as <-. injection Y as <-.
  rewrite <- py_eq_spec. unfold t. cbn [py_eq]. destruct (str_eqb_spec (u a) (u c)) as [E|E].
  - apply u_inj in E. subst c. split; auto. intros _. apply (proj1 (NoDup_nth_error l) N); [apply nth_error_Some; congruence|congruence].
  - split; [discriminate|]. intros ->. congruence.
Qed.
Lemma abc_unique : unique (map t ["A"; "B"; "C"]).
Proof. apply texts_unique. repeat constructor; cbn; intuition discriminate. Qed.
Lemma xy_unique : unique (map t ["X"; "Y"]).
Proof. apply texts_unique. repeat constructor; cbn; intuition discriminate. Qed.

(** * C84: categories built from others have the right rows *)
(** A pullback has one row for each pair of rows whose values are equal, in order; the
    other columns follow the keys.  Nothing but the new category is stored. *)
Theorem C84_pullback : forall d ask b cat def s0 s1, def_of d cat = Ret def -> tget (u "_category_construct_local.type") def = Some (VStr (u "Pullback")) ->
  tget (u "_category_construct_local.components") def = Some (VList [VStr (s_item s0); VStr (s_item s1)]) -> tget (u "_category_construct_local.new_ids") def = Some (VList [VStr (s_new s0); VStr (s_new s1)]) ->
  side_ok d ask b cat [s_new s0; s_new s1] s0 -> side_ok d ask b cat [s_new s0; s_new s1] s1 -> NoDup (s_full s0 :: s_full s1 :: map cp_to (s_copied s0) ++ map cp_to (s_copied s1)) ->
  exists cols0 cols1, construct d ask cat b = match pulled (rows_of s0) (rows_of s1) with
     | [] => (b, Ok [])
     | rows => stored d cat ([(s_full s0, VList (map fst rows)); (s_full s1, VList (map snd rows))] ++ cols0 ++ cols1) b
     end /\
  Forall2 (follows (s_keys s0) (map fst (pulled (rows_of s0) (rows_of s1)))) (s_copied s0) cols0 /\ Forall2 (follows (s_keys s1) (map snd (pulled (rows_of s0) (rows_of s1)))) (s_copied s1) cols1.
Proof. exact construct_pullback. Qed.
Theorem C84_rows : forall rows0 rows1 x y, In (x, y) (pulled rows0 rows1) <-> exists v w, In (x, v) rows0 /\ In (y, w) rows1 /\ same_value v w.
Proof.
  intros. rewrite pulled_In. split; intros (v & w & I & J & E); exists v, w; (split; [exact I|]); (split; [exact J|]); now apply py_eq_spec.
Qed.
(** A filter keeps the rows with one of the filter values. *)
Theorem C84_filter : forall d ask b cat def s fvals, def_of d cat = Ret def -> tget (u "_category_construct_local.type") def = Some (VStr (u "Filter")) ->
  tget (u "_category_construct_local.components") def = Some (VList [VStr (s_item s)]) -> tget (u "_category_construct_local.new_ids") def = Some (VList [VStr (s_new s)]) ->
  filter_values d def fvals -> NoDup fvals -> Forall simple fvals -> side_ok d ask b cat [s_new s] s -> NoDup (s_full s :: map cp_to (s_copied s)) ->
  exists cols, construct d ask cat b = match map fst (filter (fun r => existsb (py_eq (snd r)) fvals) (rows_of s)) with
     | [] => (b, Ok [])
     | keys => stored d cat ((s_full s, VList keys) :: cols) b
     end /\ Forall2 (follows (s_keys s) (map fst (filter (fun r => existsb (py_eq (snd r)) fvals) (rows_of s)))) (s_copied s) cols.
Proof. exact construct_filter. Qed.
(** What is copied: the objects of both categories but for the new keys. *)
Theorem C84_copied : forall d from to skip names objects_from objects_to, (forall l x, In x (dd_set d l) <-> In x l) ->
  object_names_in_cat (dd_defs d) from = Ret objects_from -> object_names_in_cat (dd_defs d) to = Ret objects_to -> projected d from to skip = Ret names ->
  forall n, In n names <-> In (VStr n) objects_from /\ In (VStr n) objects_to /\ ~ In n skip.
Proof. exact projected_In. Qed.
(** The items of the new category are read from it. *)
Theorem C84_read : forall n d cache provide key cat def b b1 sources result v, has_key key b = false -> never_alias d key -> category_of d key = Ret cat -> str_eqb key (u "saves") = false ->
  (forall k, In k (cat_names d cat) -> has_or_alias d k b = false) -> pulled_to d cat = Ret sources -> def_of d cat = Ret def -> tget (u "_category_construct_local.type") def <> None ->
  (forall D, construct d (getitem d cache D provide) cat b = (b1, Ok result)) -> dget str_eqb key result = Some v -> read (S n) d cache provide key b = (b1, Ok v).
Proof. exact built_read. Qed.
(** The columns of the new category are one loop, with its key first; all else is as it
    was. *)
Theorem C84_table : forall d cat cols b rows, WF b -> cols <> [] -> NoDup (map fst cols) -> (forall k, In k (cat_names d cat) -> has_key k b = false) ->
  (forall n v, In (n, v) cols -> lower n = n /\ category_of d n = Ret cat /\ check_data_name (b_max b) (b_uni b) n = Ret tt /\ exists l, v = VList l /\ length l = rows /\ Forall simple l /\ acceptable_value (b_uni b) (VList l)) ->
  exists b1 names, stored d cat cols b = (b1, Ok cols) /\ WF b1 /\ Permutation names (map fst cols) /\ (forall n v, In (n, v) cols -> get_item n b1 = Ret v /\ get_loop_names n b1 = Ret names) /\
  (forall k, In k (map fst cols) -> (forall k', In k' (map fst cols) -> (k' = k <-> exists def, def_of d k' = Ret def /\ tget (u "_type.purpose") def = Some (VStr (u "Key")))) -> exists r, names = k :: r) /\ kept b b1.
Proof.
  intros d cat cols b rows W NE N NP H.
  assert (forall l, Forall simple l -> map conv_elem l = l) as SM. { intros l F. induction F as [|x l (s & [-> | ->]) _ IH]; cbn [map conv_elem]; [reflexivity| |]; now rewrite IH. }
  destruct (stored_table d cat rows cols b W NE N) as (b1 & names & E & W1 & P & V & K & O); auto.
  - apply Forall_forall. intros [n v] I. destruct (H n v I) as (X1 & X2 & X3 & l & X4 & X5 & X6 & X7). split; [exact X1|]. split; [exact X2|]. split; [exact X3|]. exists l. split; [exact X4|]. split; [exact X5|]. now rewrite SM.
  - exists b1, names. split; [exact E|]. split; [exact W1|]. split; [exact P|]. split; [|split; [exact K|exact O]]. intros n v I. destruct (V n v I) as [V1 V2]. split; [|exact V2]. rewrite V1. destruct (H n v I) as (_ & _ & _ & l & -> & _ & X6 & _). cbn [elems]. now rewrite SM.
Qed.
Definition purposes : defs := ac ++ [category "p" "_p.id_a" bonds; item "p" "id_c"; (u "_p.id_a", attrs [("_definition.id", t "_p.id_a"); ("_name.category_id", t "p"); ("_name.object_id", t "id_a"); ("_type.purpose", t "Key")])].
Definition pq : list (str * value) := [(u "_p.id_c", tl ["X"; "Y"]); (u "_p.id_a", tl ["A"; "C"])].
Example C84_table_meets : (forall n v, In (n, v) pq -> lower n = n /\ category_of (dict purposes) n = Ret (u "p") /\ check_data_name (b_max data) (b_uni data) n = Ret tt /\ exists l, v = VList l /\ length l = 2 /\ Forall simple l /\ acceptable_value (b_uni data) (VList l)) /\
  (forall k', In k' (map fst pq) -> (k' = u "_p.id_a" <-> exists def, def_of (dict purposes) k' = Ret def /\ tget (u "_type.purpose") def = Some (VStr (u "Key")))) /\
  get_loop_names (u "_p.id_c") (fst (stored (dict purposes) (u "p") pq data)) = Ret [u "_p.id_a"; u "_p.id_c"].
Proof.
  split; [|split; [|vm_compute; reflexivity]].
  - intros n v [I|[I|[]]]; injection I as <- <-; (split; [vm_compute; reflexivity|]); (split; [vm_compute; reflexivity|]); (split; [vm_compute; reflexivity|]); (eexists; split; [reflexivity|]); (split; [reflexivity|]);
      (split; [repeat (constructor; [eexists; left; reflexivity|]); constructor|]); split; [eexists; vm_compute; reflexivity|vm_compute; reflexivity|eexists; vm_compute; reflexivity|vm_compute; reflexivity].
  - intros k' [<-|[<-|[]]]; cbn [fst]; split.
    + intros X. vm_compute in X. discriminate X.
    + intros (def & E & P). vm_compute in E. injection E as <-. vm_compute in P. discriminate P.
    + intros _. eexists. split; vm_compute; reflexivity.
    + reflexivity.
Qed.
Lemma side_a_ok cat new full cs D d : d = dict pairs /\ cat = "p" /\ new = "id_a" /\ full = "_p.id_a" /\ cs = [label_of "_p.label"] ->
  side_ok d (getitem d true D false) data (u cat) [u "id_a"; u "id_c"] (side_a new full cs).
Proof.
  intros (-> & -> & -> & -> & ->). split; [vm_compute; reflexivity|]. split; [eexists; split; vm_compute; reflexivity|]. split; [vm_compute; reflexivity|]. split; [vm_compute; reflexivity|]. split; [vm_compute; reflexivity|].
  split; [exact abc_unique|]. split; [reflexivity|]. split; [vm_compute; reflexivity|]. constructor; [|constructor]. split; [vm_compute; reflexivity|]. split; [vm_compute; reflexivity|]. split; vm_compute; reflexivity.
Qed.
Lemma side_c_ok D : side_ok (dict pairs) (getitem (dict pairs) true D false) data (u "p") [u "id_a"; u "id_c"] side_c.
Proof.
  split; [vm_compute; reflexivity|]. split; [eexists; split; vm_compute; reflexivity|]. split; [vm_compute; reflexivity|]. split; [vm_compute; reflexivity|]. split; [vm_compute; reflexivity|].
  split; [exact xy_unique|]. split; [reflexivity|]. split; [vm_compute; reflexivity|]. constructor; [|constructor]. split; [vm_compute; reflexivity|]. split; [vm_compute; reflexivity|]. split; vm_compute; reflexivity.
Qed.
Definition p_def : table := attrs ([("_definition.id", t "p"); ("_definition.scope", t "Category"); ("_definition.class", t "Loop"); ("_name.category_id", t "top"); ("_name.object_id", t "p"); ("_category.key_id", t "_p.id_a")] ++ bonds).
Example C84_meets : def_of (dict pairs) (u "p") = Ret p_def /\ (forall D, side_ok (dict pairs) (getitem (dict pairs) true D false) data (u "p") [u "id_a"; u "id_c"] (side_a "id_a" "_p.id_a" [label_of "_p.label"])) /\
  (forall D, side_ok (dict pairs) (getitem (dict pairs) true D false) data (u "p") [u "id_a"; u "id_c"] side_c) /\ NoDup [u "_p.id_a"; u "_p.id_c"; u "_p.label"; u "_p.mass"] /\
  pulled (rows_of (side_a "id_a" "_p.id_a" [])) (rows_of side_c) = [(t "A", t "X"); (t "A", t "Y"); (t "C", t "X"); (t "C", t "Y")] /\
  snd (read 30 (dict pairs) true false (u "_p.label") data) = Ok (tl ["la"; "la"; "lc"; "lc"]) /\ snd (read 30 (dict pairs) true false (u "_p.mass") data) = Ok (tl ["mx"; "my"; "mx"; "my"]).
Proof.
  split; [vm_compute; reflexivity|]. split; [intros; now apply side_a_ok|]. split; [intros; apply side_c_ok|]. split; [repeat constructor; vm_compute; intuition discriminate|]. split; [vm_compute; reflexivity|]. split; vm_compute; reflexivity.
Qed.
Example C84_filter_meets : filter_values (dict selection) (snd (category "s" "_s.id" (chosen ["1"]))) [t "1"] /\
  side_ok (dict selection) (ask_in (dict selection)) data (u "s") [u "id"] (side_a "id" "_s.id" [label_of "_s.label"]) /\
  snd (construct (dict selection) (ask_in (dict selection)) (u "s") data) = Ok [(u "_s.id", tl ["A"; "C"]); (u "_s.label", tl ["la"; "lc"])].
Proof.
  split; [left; split; vm_compute; reflexivity|]. split; [|vm_compute; reflexivity]. split; [vm_compute; reflexivity|]. split; [eexists; split; vm_compute; reflexivity|]. split; [vm_compute; reflexivity|]. split; [vm_compute; reflexivity|]. split; [vm_compute; reflexivity|].
  split; [exact abc_unique|]. split; [reflexivity|]. split; [vm_compute; reflexivity|]. constructor; [|constructor]. split; [vm_compute; reflexivity|]. split; [vm_compute; reflexivity|]. split; vm_compute; reflexivity.
Qed.
Definition twice : block := block_of [("_a.id", tl ["A"; "A"]); ("_a.type", tl ["1"; "2"]); ("_c.id", tl ["X"]); ("_c.type", tl ["2"])].
(** Rows are found by their keys: with a repeated key, a matching row is overlooked. *)
Theorem C84_repeated_keys_refuted : exists d b b1 rows0 rows1, get_item (u "_a.id") b = Ret (VList (map fst rows0)) /\ get_item (u "_a.type") b = Ret (VList (map snd rows0)) /\
  get_item (u "_c.id") b = Ret (VList (map fst rows1)) /\ get_item (u "_c.type") b = Ret (VList (map snd rows1)) /\ pulled rows0 rows1 <> [] /\ construct d (ask_in d) (u "p") b = (b1, Ok []).
Proof.
  exists (dict (ac ++ [category "p" "_p.id_a" bonds; item "p" "id_a"; item "p" "id_c"])), twice, twice, [(t "A", t "1"); (t "A", t "2")], [(t "X", t "2")].
  repeat (split; [vm_compute; reflexivity|]). split; [vm_compute; discriminate|vm_compute; reflexivity].
Qed.
Definition two_more : defs := ac ++ [item "a" "note"; category "p" "_p.id_a" bonds; item "p" "id_a"; item "p" "id_c"; item "p" "label"; item "p" "note"].
(** A column that the first category does not have is filled with the values of another
    item. *)
Theorem C84_missing_column_refuted : exists d b, has_key (u "_a.note") b = false /\ dd_methods d (u "_a.note") = [] /\
  get_item (u "_a.label") b = Ret (tl ["la"; "lb"; "lc"]) /\ snd (read 30 d true false (u "_p.note") b) = Ok (tl ["la"; "la"; "lc"; "lc"]).
Proof. exists (dict two_more), data. repeat (split; [vm_compute; reflexivity|]). vm_compute. reflexivity. Qed.
(** If it is the first of the columns, even the items that can be found are not given, but
    python's UnboundLocalError. *)
Theorem C84_first_missing_refuted : exists d b, has_key (u "_a.label") b = false /\ get_item (u "_a.id") b = Ret (tl ["A"]) /\ get_item (u "_c.id") b = Ret (tl ["X"]) /\
  get_item (u "_a.type") b = get_item (u "_c.type") b /\ snd (read 30 d true false (u "_p.id_a") b) = Err XUnbound.
Proof.
  exists (dict pairs), (block_of [("_a.id", tl ["A"]); ("_a.type", tl ["1"]); ("_c.id", tl ["X"]); ("_c.type", tl ["1"])]).
  repeat (split; [vm_compute; reflexivity|]). vm_compute. reflexivity.
Qed.
Definition capital : defs := ac ++ [category "P" "_p.id_a" bonds; item "P" "id_a"; item "P" "id_c"].
Definition small : defs := ac ++ [category "p" "_p.id_a" bonds; item "p" "id_a"; item "p" "id_c"].
(** A category whose name is spelled with a capital letter is not built: KeyError. *)
Theorem C84_capitals_refuted : exists b, snd (read 30 (dict small) true false (u "_p.id_a") b) = Ok (tl ["A"; "A"; "C"; "C"]) /\
  (forall k tb, In (k, tb) capital -> exists tb', In (lower k, tb') small) /\ category_of (dict small) (u "_p.id_a") = Ret (u "p") /\ snd (construct (dict capital) (ask_in (dict capital)) (u "P") b) = Err (XPy KeyErr).
Proof.
  exists data. split; [vm_compute; reflexivity|]. split; [|split; vm_compute; reflexivity]. intros k tb I. vm_compute in I.
  repeat (destruct I as [I|I]; [injection I as <- _; eexists; vm_compute; tauto|]). contradiction.
Qed.
(** A filter value given twice gives every row twice. *)
Theorem C84_filter_twice_refuted : exists d b vals, get_item (u "_a.id") b = Ret (VList vals) /\ NoDup vals /\ exists keys, snd (read 30 d true false (u "_s.id") b) = Ok (VList keys) /\ ~ NoDup keys.
Proof.
  exists (dict (ac ++ [category "s" "_s.id" (chosen ["1"; "1"]); item "s" "id"])), data, (map t ["A"; "B"; "C"]). split; [vm_compute; reflexivity|]. split; [repeat constructor; vm_compute; intuition discriminate|].
  eexists. split; [vm_compute; reflexivity|]. intros N. inversion N as [|? ? X _]. apply X. now left.
Qed.
Definition broken : defs := [category "q" "_q.id" [("_category_construct_local.components", tl ["_nowhere.x"])]; category "z" "_z.id" []; (u "_z.w", attrs [("_definition.id", t "_z.w"); ("_name.category_id", t "z"); ("_name.object_id", t "w"); ("_alias.definition_id", tl ["_z_w"])]); item "z" "id"].
(** One category built from an undefined item makes all derivations in other categories
    fail, here of an item with a method. *)
Theorem C84_undefined_component_refuted : exists d b p v, dd_methods d (u "_z.id") = [p] /\ (forall ask b', run d ask p b' = (b', Ok v)) /\ category_of d (u "_z.id") = Ret (u "z") /\
  snd (read 30 d true false (u "_z.id") b) = Err (XPy KeyErr).
Proof.
  exists (mkDD broken (method_table [("_z.id", [Done (tl ["1"])])]) (fun _ v => Ret v) (objects broken) (fun l => l) Ret), (block_of []), (Done (tl ["1"])), (tl ["1"]).
  split; [reflexivity|]. split; [reflexivity|]. split; vm_compute; reflexivity.
Qed.

(** * C85: the way back from a category that was built *)
(** With one pullback that uses the category, the keys are the column of the pullback that
    refers to the category, and the items with the same object name are copied. *)
Theorem C85_from_pullback : forall d ask b target source key skey tdef sdef m0 m1 o0 o1 s0 s1 c0 c1 old ids cs,
  def_of d target = Ret tdef -> tget (u "_category.key_id") tdef = Some (VStr key) -> def_of d source = Ret sdef -> tget (u "_category.key_id") sdef = Some (VStr skey) ->
  tget (u "_category_construct_local.components") sdef = Some (VList [VStr m0; VStr m1]) -> tget (u "_category_construct_local.new_ids") sdef = Some (VList [VStr o0; VStr o1]) ->
  category_of d m0 = Ret c0 -> category_of d m1 = Ret c1 -> dd_object d source o0 = Ret s0 -> dd_object d source o1 = Ret s1 ->
  (c0 = target /\ old = s0) \/ (c0 <> target /\ c1 = target /\ old = s1) -> ask old b = (b, Ok (VList ids)) ->
  projected d source target [o0; o1; key] = Ret (map cp_name cs) -> Forall (can_copy d ask b source target ids) cs -> NoDup (key :: map cp_to cs) ->
  push d ask target [source] b = stored d target ((key, VList ids) :: map (fun c => (cp_to c, VList (cp_vals c))) cs) b.
Proof. intros. eapply push_pair_ok; eauto. Qed.
(** With a filter with one value, the item that is compared has that value in all rows. *)
Theorem C85_from_filter : forall d ask b target source key skey tdef sdef m0 o0 s0 c0 ids x y cs,
  def_of d target = Ret tdef -> tget (u "_category.key_id") tdef = Some (VStr key) -> def_of d source = Ret sdef -> tget (u "_category.key_id") sdef = Some (VStr skey) ->
  tget (u "_category_construct_local.type") sdef = Some (VStr (u "Filter")) -> tget (u "_category_construct_local.components") sdef = Some (VList [VStr m0]) -> tget (u "_category_construct_local.new_ids") sdef = Some (VList [VStr o0]) ->
  category_of d m0 = Ret c0 -> dd_object d source o0 = Ret s0 -> ask s0 b = (b, Ok (VList ids)) -> has_key s0 b = true ->
  (tget (u "_category_construct_local.integer_filter") sdef = None /\ tget (u "_category_construct_local.text_filter") sdef = Some (VList [x]) /\ y = x) \/
  (tget (u "_category_construct_local.integer_filter") sdef = Some (VList [x]) /\ dd_int d x = Ret y) ->
  projected d source target [o0] = Ret (map cp_name cs) -> Forall (can_copy d ask b source target ids) cs -> NoDup (key :: map cp_to cs ++ [m0]) ->
  push d ask target [source] b = stored d target ((key, VList ids) :: map (fun c => (cp_to c, VList (cp_vals c))) cs ++ [(m0, VList (repeat y (length ids)))]) b.
Proof. intros. eapply push_filter_ok; eauto. Qed.
(** Which categories are used: all those with a component in the category. *)
Theorem C85_sources : forall d cat sources, pulled_to d cat = Ret sources -> (forall k def v, In (k, def) (dd_defs d) -> tget (u "_category_construct_local.components") def = Some v -> exists l, v = VList l) ->
  forall k, In k sources <-> exists def l c, In (k, def) (dd_defs d) /\ tget (u "_category_construct_local.components") def = Some (VList l) /\ In (VStr c) l /\ category_of d c = Ret cat.
Proof. exact pulled_to_In. Qed.
(** The items of the category are then read from what was found. *)
Theorem C85_read : forall n d cache provide key cat def b b1 s sources result v, has_key key b = false -> never_alias d key -> category_of d key = Ret cat -> key <> u "saves" ->
  (forall k, In k (cat_names d cat) -> has_or_alias d k b = false) -> pulled_to d cat = Ret (s :: sources) -> def_of d cat = Ret def -> tget (u "_category_construct_local.type") def = None ->
  (forall D, push d (getitem d cache D provide) cat (s :: sources) b = (b1, Ok result)) -> dget str_eqb key result = Some v -> read (S n) d cache provide key b = (b1, Ok v).
Proof. exact pushed_read. Qed.
Definition back : block := block_of [("_p.id_a", tl ["A"; "B"]); ("_p.id_c", tl ["X"; "Y"]); ("_p.label", tl ["la"; "lb"])].
Example C85_meets : category_of (dict pairs) (u "_a.type") = Ret (u "a") /\ category_of (dict pairs) (u "_c.type") = Ret (u "c") /\ objects pairs (u "p") (u "id_a") = Ret (u "_p.id_a") /\ objects pairs (u "p") (u "id_c") = Ret (u "_p.id_c") /\
  ask_in (dict pairs) (u "_p.id_a") back = (back, Ok (tl ["A"; "B"])) /\ projected (dict pairs) (u "p") (u "a") [u "id_a"; u "id_c"; u "_a.id"] = Ret [u "label"] /\
  can_copy (dict pairs) (ask_in (dict pairs)) back (u "p") (u "a") (map t ["A"; "B"]) (mkCopied (u "label") (u "_p.label") (u "_a.label") (map t ["la"; "lb"])) /\
  pulled_to (dict pairs) (u "a") = Ret [u "p"] /\ snd (read 30 (dict pairs) true false (u "_a.label") back) = Ok (tl ["la"; "lb"]).
Proof. repeat (split; [vm_compute; reflexivity|]). split; [repeat (split; [vm_compute; reflexivity|]); vm_compute; reflexivity|]. split; vm_compute; reflexivity. Qed.
Definition back_s : block := block_of [("_s.id", tl ["A"; "B"]); ("_s.label", tl ["la"; "lb"])].
Example C85_filter_meets : objects selection (u "s") (u "id") = Ret (u "_s.id") /\ ask_in (dict selection) (u "_s.id") back_s = (back_s, Ok (tl ["A"; "B"])) /\ has_key (u "_s.id") back_s = true /\
  projected (dict selection) (u "s") (u "a") [u "id"] = Ret [u "label"] /\ can_copy (dict selection) (ask_in (dict selection)) back_s (u "s") (u "a") (map t ["A"; "B"]) (mkCopied (u "label") (u "_s.label") (u "_a.label") (map t ["la"; "lb"])) /\
  snd (read 30 (dict selection) true false (u "_a.type") back_s) = Ok (tl ["1"; "1"]).
Proof. repeat (split; [vm_compute; reflexivity|]). split; [repeat (split; [vm_compute; reflexivity|]); vm_compute; reflexivity|]. vm_compute. reflexivity. Qed.
(** A pullback has most keys in several rows: the category that is filled from it has rows
    with the same key.  Here from the rows that the pullback itself was built with. *)
Theorem C85_keys_unique_refuted : exists d b b', construct d (ask_in d) (u "p") data = (b, Ok [(u "_p.id_a", tl ["A"; "A"; "C"; "C"]); (u "_p.id_c", tl ["X"; "Y"; "X"; "Y"])]) /\
  (forall k, In k [u "_p.id_a"; u "_p.id_c"] -> get_item k b' = get_item k b) /\ has_key (u "_a.id") b' = false /\
  exists keys, snd (read 30 d true false (u "_a.id") b') = Ok (VList keys) /\ ~ NoDup keys.
Proof.
  exists (dict small), (fst (construct (dict small) (ask_in (dict small)) (u "p") data)), (block_of [("_p.id_a", tl ["A"; "A"; "C"; "C"]); ("_p.id_c", tl ["X"; "Y"; "X"; "Y"])]).
  split; [vm_compute; reflexivity|]. split; [intros k [<-|[<-|[]]]; vm_compute; reflexivity|]. split; [vm_compute; reflexivity|]. eexists. split; [vm_compute; reflexivity|]. intros N. inversion N as [|? ? X _]. apply X. now left.
Qed.
Definition own_id : defs := ac ++ [category "p" "_p.id" bonds; item "p" "id"; item "p" "id_a"; item "p" "id_c"].
(** If the pullback has an item with the object name of the key, that item is copied over
    the keys. *)
Theorem C85_key_copied_refuted : exists d b, get_item (u "_p.id_a") b = Ret (tl ["A"; "B"]) /\ get_item (u "_p.id") b = Ret (tl ["1"; "2"]) /\ snd (read 30 d true false (u "_a.id") b) = Ok (tl ["1"; "2"]).
Proof. exists (dict own_id), (block_of [("_p.id", tl ["1"; "2"]); ("_p.id_a", tl ["A"; "B"]); ("_p.id_c", tl ["X"; "Y"])]). repeat (split; [vm_compute; reflexivity|]). vm_compute. reflexivity. Qed.

Definition pullback_theorems := (C84_table, C85_sources, C85_read, C84_pullback, C84_rows, C84_filter, C84_copied, C84_read, C84_repeated_keys_refuted, C84_missing_column_refuted, C84_first_missing_refuted, C84_capitals_refuted, C84_filter_twice_refuted, C84_undefined_component_refuted, C85_from_pullback, C85_from_filter, C85_keys_unique_refuted, C85_key_copied_refuted).
Print Assumptions pullback_theorems.
