(** C42-C46, C53-C56: validation against a DDL1/DDL2 dictionary. *)
From Coq Require Import String Ascii List NArith ZArith QArith Bool Lia Permutation.
From Verif Require Import PyBase PyFacts StarBlockModel LoopModel LoopSpec RegexModel RegexSpec RegexProofs NumberModel NumberSpec ValidateModel ValidateSpec ValidateProofs ValidateProofs2 ValidateProofs3 ValidateProofs4.
Import ListNotations.
Open Scope string_scope.
Open Scope list_scope.
Open Scope nat_scope.

(** A DDL2 dictionary (attribute names of src/CifFile_module.nw 635-655). *)
Definition ddl2 (types : list (str * re)) (defs : list (str * table)) : cifdic :=
  mkDic defs types (u "_item_type.code") (u "_type") (u "_item_type_conditions.code") (u "_item_enumeration.value") (u "xxx")
    (u "_item_linked.parent_name") (u "_item_linked.child_name") (u "_item.category_id") (u "_item.mandatory_code")
    (u "_item_dependent.dependent_name") (u "_item_related.function_code") (u "_item_related.related_name") (u "_category_mandatory.name") (u "xxx") [].
Definition T (s : string) : value := VStr (u s).
Definition L (l : list string) : value := VList (map T l).

(** ** C42: ranges *)
(** Every value passes exactly if it is unknown, inapplicable, or begins with a
    number inside one of the ranges; the others are reported, in order. *)
Theorem C42_ranges_exact d name v def mins maxs lo up vs : dic_get d name = Ret def -> (tget range_min def <> None \/ tget range_max def <> None) ->
  end_values def range_min mins -> end_values def range_max maxs -> Forall2 bound_of mins lo -> Forall2 bound_of maxs up ->
  held v vs -> (forall a, In a vs -> is_text a = true) ->
  exists r, validate_enum_range d name v = Ret r /\ verdict (in_range (combine lo up)) vs r [].
Proof. exact (range_ok d name v def mins maxs lo up vs). Qed.
Theorem C42_ranges_pass d name v def mins maxs lo up vs : dic_get d name = Ret def -> (tget range_min def <> None \/ tget range_max def <> None) ->
  end_values def range_min mins -> end_values def range_max maxs -> Forall2 bound_of mins lo -> Forall2 bound_of maxs up ->
  held v vs -> (forall a, In a vs -> is_text a = true) -> (validate_enum_range d name v = Ret RTrue <-> Forall (in_range (combine lo up)) vs).
Proof.
  intros H1 H2 H3 H4 H5 H6 H7 H8. destruct (range_ok _ _ _ _ _ _ _ _ _ H1 H2 H3 H4 H5 H6 H7 H8) as (r & E & V). apply verdict_true in V. rewrite <- V, E. split; [intros K; now injection K|now intros ->].
Qed.
Theorem C42_no_range d name v def : dic_get d name = Ret def -> tget range_min def = None -> tget range_max def = None -> validate_enum_range d name v = Ret RNone.
Proof. exact (range_none d name v def). Qed.
Definition range_dic (mn mx : value) : cifdic := ddl2 [] [(u "_a", [(range_min, mn); (range_max, mx)])].
Example C42_example :
  validate_enum_range (range_dic (L ["0.0"; "0.0"; "10"]) (L ["0.0"; "5"; "."])) (u "_a") (L ["0"; "3.2(1)"; "5"; "?"; "11"; "-1"; "x"]) = Ret (RFalse [T "5"; T "-1"; T "x"] []).
Proof. vm_compute. reflexivity. Qed.
Definition plain_int (ds : list N) : numeral := mkNum false ds None None None.
Lemma plain_proper ds : Forall (fun d => (d < 10)%N) ds -> ds <> [] -> proper (plain_int ds).
Proof. intros H N. split; cbn; auto; try discriminate. Qed.
Example C42_meets : exists d name v def mins maxs lo up vs, dic_get d name = Ret def /\ tget range_min def <> None /\ end_values def range_min mins /\ end_values def range_max maxs
  /\ Forall2 bound_of mins lo /\ Forall2 bound_of maxs up /\ held v vs /\ (forall a, In a vs -> is_text a = true) /\ length lo = 2.
Proof.
  exists (range_dic (L ["1"; "."]) (L ["5"; "0"])), (u "_a"), (L ["3"; "x"]), [(range_min, L ["1"; "."]); (range_max, L ["5"; "0"])], (map T ["1"; "."]), (map T ["5"; "0"]),
    [Some (number (plain_int [1%N])); None], [Some (number (plain_int [5%N])); Some (number (plain_int [0%N]))], (map T ["3"; "x"]).
  assert (forall k, (k < 10)%N -> bound_of (VStr [48 + k]%N) (Some (number (plain_int [k])))) as B.
  { intros k Hk. apply (b_num (plain_int [k])); [apply plain_proper; [constructor; [exact Hk|constructor]|discriminate]|reflexivity|discriminate|reflexivity|left; reflexivity]. }
  split; [reflexivity|]. split; [discriminate|]. split; [left; reflexivity|]. split; [left; reflexivity|].
  split; [constructor; [exact (B 1%N eq_refl)|constructor; [constructor|constructor]]|]. split; [constructor; [exact (B 5%N eq_refl)|constructor; [exact (B 0%N eq_refl)|constructor]]|].
  split; [constructor|]. split; [|reflexivity]. intros a [<-|[<-|[]]]; reflexivity.
Qed.
(** A range given without a loop is taken character by character: 500 passes
    a range from 10.0 to 20.0, and 15 fails a range from 10 to 20. *)
Theorem C42_single_range_refuted : exists lo up v w, validate_enum_range (range_dic (T "10.0") (T "20.0")) (u "_a") (VStr (text v)) = Ret RTrue
  /\ (number lo == 10)%Q /\ (number up == 20)%Q /\ (number up < number v)%Q
  /\ validate_enum_range (range_dic (VStr (text lo)) (VStr (text up))) (u "_a") (VStr (text w)) = Ret (RFalse [VStr (text w)] [])
  /\ (number lo < number w)%Q /\ (number w < number up)%Q.
Proof.
  exists (plain_int [1; 0]%N), (plain_int [2; 0]%N), (plain_int [5; 0; 0]%N), (plain_int [1; 5]%N). split; [vm_compute; reflexivity|]. split; [vm_compute; reflexivity|].
  split; [vm_compute; reflexivity|]. split; [vm_compute; reflexivity|]. split; [vm_compute; reflexivity|]. split; vm_compute; reflexivity.
Qed.
(** Only the number the text begins with is looked at. *)
Theorem C42_trailing_text_refuted : exists s, s = u "15 apples" /\ validate_enum_range (range_dic (L ["10"]) (L ["20"])) (u "_a") (VStr s) = Ret RTrue.
Proof. eexists. split; [reflexivity|vm_compute; reflexivity]. Qed.

(** ** C43: enumerations *)
Theorem C43_enumeration_exact d name v def l enum vs : dic_get d name = Ret def -> tget (d_enum_spec d) def = Some enum -> (enum = VList l \/ enum = VSL l) -> held v vs ->
  exists r, validate_item_enum d name v = Ret r /\ verdict (listed l) vs r [].
Proof. exact (enum_ok d name v def l enum vs). Qed.
Theorem C43_enumeration_pass d name v def l enum vs : dic_get d name = Ret def -> tget (d_enum_spec d) def = Some enum -> (enum = VList l \/ enum = VSL l) -> held v vs ->
  (validate_item_enum d name v = Ret RTrue <-> forall a, In a vs -> unknown a \/ exists w, In w l /\ same_value a w).
Proof.
  intros H1 H2 H3 H4. destruct (enum_ok _ _ _ _ _ _ _ H1 H2 H3 H4) as (r & E & V). apply verdict_true in V. rewrite E. split.
  - intros K. injection K as ->. apply Forall_forall. now apply V.
  - intros K. f_equal. apply V. now apply Forall_forall.
Qed.
Theorem C43_no_enumeration d name v : (forall def, dic_get d name = Ret def -> tget (d_enum_spec d) def = None) -> validate_item_enum d name v = Ret RNone.
Proof. exact (enum_none d name v). Qed.
Definition enum_dic (e : value) : cifdic := ddl2 [] [(u "_a", [(u "_item_enumeration.value", e)])].
Example C43_example : validate_item_enum (enum_dic (L ["yes"; "no"])) (u "_A") (L ["no"; "."; "YES"; "?"; "maybe"]) = Ret (RFalse [T "YES"; T "maybe"] []).
Proof. vm_compute. reflexivity. Qed.
Example C43_meets : exists d name v def l enum vs, dic_get d name = Ret def /\ tget (d_enum_spec d) def = Some enum /\ (enum = VList l \/ enum = VSL l) /\ held v vs /\ length l = 2 /\ length vs = 2.
Proof.
  exists (enum_dic (L ["yes"; "no"])), (u "_A"), (L ["no"; "maybe"]), [(u "_item_enumeration.value", L ["yes"; "no"])], (map T ["yes"; "no"]), (L ["yes"; "no"]), (map T ["no"; "maybe"]).
  split; [reflexivity|]. split; [reflexivity|]. split; [now left|]. split; [constructor|]. split; reflexivity.
Qed.
(** An enumeration of one value, given without a loop, raises AttributeError. *)
Theorem C43_single_value_refuted : exists v, validate_item_enum (enum_dic v) (u "_a") v = Raise AttributeErr.
Proof. exists (T "yes"). vm_compute. reflexivity. Qed.

(** ** C44: uniqueness of keys *)
(** If the check passes, no two rows agree on all keys.  If no value contains a
    space the converse holds too. *)
Theorem C44_unique_sound d name v def category cat keys col cols whole prov : dic_get d name = Ret def -> tget (d_cat_spec d) def = Some (VStr category) -> dic_get d category = Ret cat ->
  key_names cat keys -> In name keys -> holds_col v col -> Forall2 (column_of whole prov) (remove1 str_eqb name keys) cols -> (forall c, In c cols -> length c = length col) ->
  validate_uniqueness d name v whole prov = Ret RTrue -> unique_rows (length col) (col :: cols).
Proof.
  intros H1 H2 H3 H4 H5 H6 H7 H8 E. destruct (unique_ok _ _ _ _ _ _ _ _ _ _ _ H1 H2 H3 H4 H5 H6 H7 H8) as (r & E' & U & _). apply U. rewrite E in E'. now injection E' as <-.
Qed.
Theorem C44_unique_exact_partial d name v def category cat keys col cols whole prov : dic_get d name = Ret def -> tget (d_cat_spec d) def = Some (VStr category) -> dic_get d category = Ret cat ->
  key_names cat keys -> In name keys -> holds_col v col -> Forall2 (column_of whole prov) (remove1 str_eqb name keys) cols -> (forall c, In c cols -> length c = length col) ->
  (forall c s, In c (col :: cols) -> In s c -> ~ In 32%N s) ->
  (validate_uniqueness d name v whole prov = Ret RTrue <-> unique_rows (length col) (col :: cols))
  /\ (~ unique_rows (length col) (col :: cols) -> exists e, validate_uniqueness d name v whole prov = Ret (RFalse [VStr e] [])).
Proof.
  intros H1 H2 H3 H4 H5 H6 H7 H8 S. destruct (unique_ok _ _ _ _ _ _ _ _ _ _ _ H1 H2 H3 H4 H5 H6 H7 H8) as (r & E & U1 & U2 & U3). rewrite E. split.
  - split; [intros K; injection K as ->; now apply U1|]. intros K. f_equal. now apply U2.
  - intros K. destruct U3 as (e & ->); [intros ->; elim K; now apply U1|]. now exists e.
Qed.
Definition key_dic (keys : value) : cifdic :=
  ddl2 [] [(u "_c.x", [(u "_item.category_id", T "c")]); (u "_c.y", [(u "_item.category_id", T "c")]); (u "c", [(u "_category_key.name", keys)])].
Example C44_example :
  validate_uniqueness (key_dic (L ["_c.x"; "_c.y"])) (u "_c.x") (L ["1"; "1"; "2"]) [(u "_c.x", L ["1"; "1"; "2"]); (u "_c.y", L ["a"; "b"; "a"])] [] = Ret RTrue
  /\ validate_uniqueness (key_dic (L ["_c.x"; "_c.y"])) (u "_c.x") (L ["1"; "1"; "1"]) [(u "_c.x", L ["1"; "1"; "1"]); (u "_c.y", L ["a"; "b"; "a"])] [] = Ret (RFalse [T "1 a"] []).
Proof. split; vm_compute; reflexivity. Qed.
Example C44_meets : exists d name v def category cat keys col cols whole prov, dic_get d name = Ret def /\ tget (d_cat_spec d) def = Some (VStr category) /\ dic_get d category = Ret cat /\
  key_names cat keys /\ In name keys /\ holds_col v col /\ Forall2 (column_of whole prov) (remove1 str_eqb name keys) cols /\ (forall c, In c cols -> length c = length col) /\ (forall c s, In c (col :: cols) -> In s c -> ~ In 32%N s)
  /\ length cols = 1 /\ length col = 2.
Proof.
  exists (key_dic (L ["_c.x"; "_c.y"])), (u "_c.x"), (L ["1"; "1"]), [(u "_item.category_id", T "c")], (u "c"), [(u "_category_key.name", L ["_c.x"; "_c.y"])], [u "_c.x"; u "_c.y"], [u "1"; u "1"], [[u "a"; u "b"]],
    [(u "_c.y", L ["a"; "b"])], [].
  split; [reflexivity|]. split; [reflexivity|]. split; [reflexivity|]. split; [exists (L ["_c.x"; "_c.y"]); split; [reflexivity|now left]|]. split; [now left|]. split; [now left|].
  split; [constructor; [now left|constructor]|]. split; [intros c [<-|[]]; reflexivity|]. split; [|split; reflexivity].
  intros c s [<-|[<-|[]]] [<-|[<-|[]]] [K|[]]; discriminate.
Qed.
(** Rows are compared after joining with a space, so two different rows can
    collide. *)
Theorem C44_space_refuted : exists a b bad, unique_rows 2 [map u a; map u b]
  /\ validate_uniqueness (key_dic (L ["_c.x"; "_c.y"])) (u "_c.x") (L a) [(u "_c.x", L a); (u "_c.y", L b)] [] = Ret (RFalse [bad] []).
Proof.
  exists ["a b"; "a"], ["c"; "b c"], (T "a b c").
  split; [|vm_compute; reflexivity]. intros i j Hi Hj A. specialize (A _ (or_introl eq_refl)). destruct i as [|[|i]], j as [|[|j]]; try reflexivity; try lia; vm_compute in A; discriminate.
Qed.

(** ** C45: parents *)
Theorem C45_parent_exact d name v def p vs whole prov globals o pvs : dic_get d name = Ret def -> names_parent d def p -> held v vs ->
  parent_value p whole prov globals o -> held o pvs ->
  exists r, validate_parent d name v whole prov globals = Ret r /\ verdict (listed pvs) vs r [p].
Proof. exact (parent_ok d name v def p vs whole prov globals o pvs). Qed.
Theorem C45_parent_pass d name v def p vs whole prov globals o pvs : dic_get d name = Ret def -> names_parent d def p -> held v vs ->
  parent_value p whole prov globals o -> held o pvs ->
  (validate_parent d name v whole prov globals = Ret RTrue <-> forall a, In a vs -> unknown a \/ exists w, In w pvs /\ same_value a w).
Proof.
  intros H1 H2 H3 H4 H5. destruct (parent_ok _ _ _ _ _ _ _ _ _ _ _ H1 H2 H3 H4 H5) as (r & E & V). apply verdict_true in V. rewrite E. split.
  - intros K. injection K as ->. apply Forall_forall. now apply V.
  - intros K. f_equal. apply V. now apply Forall_forall.
Qed.
Theorem C45_parent_absent d name v def p vs whole prov globals alts : dic_get d name = Ret def -> names_parent d def p -> held v vs ->
  tget p globals = None -> tget p prov = None -> tget p whole = None -> get_alternates d p false = Ret alts -> (forall a, In a alts -> ~ present whole prov globals a) ->
  (Forall unknown vs -> validate_parent d name v whole prov globals = Ret RNone)
  /\ (~ Forall unknown vs -> validate_parent d name v whole prov globals = Ret (RFalse [] [p])).
Proof. exact (parent_absent d name v def p vs whole prov globals alts). Qed.
Definition link_dic (related : table) : cifdic :=
  ddl2 [] [(u "_c.id", related); (u "_k.id", [(u "_item_linked.parent_name", T "_c.id")])].
Example C45_example :
  validate_parent (link_dic []) (u "_k.id") (L ["1"; "?"; "9"; "2"]) [(u "_c.id", L ["1"; "2"])] [] [] = Ret (RFalse [T "9"] [u "_c.id"])
  /\ validate_parent (link_dic []) (u "_k.id") (L ["1"; "?"; "2"]) [(u "_c.id", L ["1"; "2"])] [] [] = Ret RTrue
  /\ validate_parent (link_dic []) (u "_k.id") (T "1") [] [] [] = Ret (RFalse [] [u "_c.id"])
  /\ validate_parent (link_dic []) (u "_k.id") (T "?") [] [] [] = Ret RNone.
Proof. repeat split; vm_compute; reflexivity. Qed.
Example C45_meets : exists d name v def p vs whole prov globals o pvs, dic_get d name = Ret def /\ names_parent d def p /\ held v vs /\ parent_value p whole prov globals o /\ held o pvs /\ length vs = 2 /\ length pvs = 2.
Proof.
  exists (link_dic []), (u "_k.id"), (L ["1"; "9"]), [(u "_item_linked.parent_name", T "_c.id")], (u "_c.id"), (map T ["1"; "9"]), [(u "_c.id", L ["1"; "2"])], [], [], (L ["1"; "2"]), (map T ["1"; "2"]).
  split; [reflexivity|]. split; [left; split; [reflexivity|discriminate]|]. split; [constructor|]. split; [|split; [constructor|split; reflexivity]].
  right. split; [reflexivity|]. split; [right; split; reflexivity|reflexivity].
Qed.
(** An alternate of the parent is found only if its dictionary spelling is in
    lower case: names in a data block are compared as lower-case keys. *)
Theorem C45_alternate_case_refuted : exists a, validate_parent (link_dic [(u "_item_aliases.alias_name", VStr a)]) (u "_k.id") (T "1") [(lower a, T "1")] [] [] = Ret (RFalse [] [u "_c.id"])
  /\ validate_parent (link_dic [(u "_item_aliases.alias_name", VStr (lower a))]) (u "_k.id") (T "1") [(lower a, T "1")] [] [] = Ret RTrue.
Proof. exists (u "_Old_id"). split; vm_compute; reflexivity. Qed.

(** ** C46: the verdict of a run *)
Theorem C46_valid_iff_no_failure ks t loops valid rep : run_data_checks ks t loops = Ret (valid, rep) ->
  (valid = true <-> forall c, In c (calls ks t loops) -> ~ exists v b, snd c = Ret (RFalse v b))
  /\ (forall k, entries k rep = failures k (calls ks t loops)) /\ NoDup (dkeys rep) /\ (forall k l, In (k, l) rep -> l <> []) /\ (valid = true <-> rep = []).
Proof. intros H. destruct (run_ok _ _ _ _ _ H) as (_ & V & R & N & F & E). repeat (split; [assumption|]). exact R. Qed.
Theorem C46_runs_iff_checks_return ks t loops : Forall (fun l => l <> []) loops ->
  ((exists valid rep, run_data_checks ks t loops = Ret (valid, rep)) <-> forall c, In c (calls ks t loops) -> exists r, snd c = Ret r).
Proof.
  intros Hl. rewrite <- Forall_forall. split; [intros (valid & rep & H); exact (proj1 (run_ok _ _ _ _ _ H))|]. intros R. now apply run_total.
Qed.
Theorem C46_order_irrelevant ks ks' t loops loops' valid valid' rep rep' :
  Permutation (k_item ks) (k_item ks') -> Permutation (k_global ks) (k_global ks') -> Permutation (k_loop ks) (k_loop ks') -> Permutation (k_block ks) (k_block ks') -> Permutation loops loops' ->
  run_data_checks ks t loops = Ret (valid, rep) -> run_data_checks ks' t loops' = Ret (valid', rep') -> valid = valid'.
Proof. exact (run_order ks ks' t loops loops' valid valid' rep rep'). Qed.
(** The checks of a DDL1/DDL2 dictionary (1897-1930), those modelled here. *)
Definition some_checks (d : cifdic) : checks := mkChecks
  [(u "validate_item_type", validate_item_type d); (u "validate_item_enum", validate_item_enum d); (u "validate_enum_range", validate_enum_range d)]
  [(u "validate_parent", fun n v t => validate_parent d n v t [] []); (u "validate_uniqueness", fun n v t => validate_uniqueness d n v t [])]
  [(u "validate_loop_key", validate_loop_key d)] [].
Definition run_dic : cifdic := ddl2 [] [(u "_c.x", [(u "_item.category_id", T "c"); (u "_item_enumeration.value", L ["a"; "b"])]); (u "_c.y", [(u "_item.category_id", T "c")]); (u "c", [(u "_category_key.name", L ["_c.x"])])].
Example C46_example :
  run_data_checks (some_checks run_dic) [(u "_c.x", L ["a"; "b"; "a"; "z"]); (u "_c.y", L ["1"; "2"; "3"; "4"])] [[u "_c.x"; u "_c.y"]]
  = Ret (false, [(u "_c.x", [(u "validate_item_enum", RFalse [T "z"] []); (u "validate_uniqueness", RFalse [T "a"] [])])])
  /\ run_data_checks (some_checks run_dic) [(u "_c.x", L ["a"; "b"]); (u "_c.y", L ["1"; "2"])] [[u "_c.x"; u "_c.y"]] = Ret (true, []).
Proof. split; vm_compute; reflexivity. Qed.

(** ** C53: types *)
(** A value that passes matches the whole expression of its type (or is empty,
    unknown or inapplicable); a value that the expression can only match as a
    whole passes. *)
Theorem C53_type_sound d name v def code r vs x : dic_get d name = Ret def -> tget (d_type_spec d) def = Some (VStr code) -> dget str_eqb code (d_types d) = Some r ->
  held v vs -> (forall a, In a vs -> is_text a = true) -> validate_item_type d name v = Ret x ->
  (x = RTrue -> Forall (fun a => unknown a \/ exists s, a = VStr s /\ (s = [] \/ lang r s [])) vs)
  /\ ((forall s, In (VStr s) vs -> unknown (VStr s) \/ lang r s [] /\ forall c t, s = c ++ t -> lang r c t -> t = []) -> x = RTrue).
Proof. exact (type_sound d name v def code r vs x). Qed.
(** For the common types, a class of characters repeated, the check is exact. *)
Theorem C53_class_type_exact_partial d name v def code p vs : dic_get d name = Ret def -> tget (d_type_spec d) def = Some (VStr code) -> dget str_eqb code (d_types d) = Some (RSeq (RStar (RChr p)) REol) ->
  held v vs -> (forall a, In a vs -> is_text a = true) ->
  exists r, validate_item_type d name v = Ret r /\ verdict (fun a => unknown a \/ exists s, a = VStr s /\ Forall (fun c => p c = true) s) vs r [].
Proof.
  intros H1 H2 H3 H4 H5. destruct (type_ok _ _ _ _ _ _ _ H1 H2 H3 H4 H5) as (r & E & (bad & O & V)). exists r. split; [exact E|]. exists bad. split; [|exact V]. clear -O.
  induction O as [|x l b N _ IH|x l b Y _ IH]; [constructor| |].
  - apply of_bad; [|exact IH]. intros [U|(s & -> & F)]; apply N; [now left|]. right. exists s. split; [reflexivity|]. now apply whole_class.
  - apply of_good; [|exact IH]. destruct Y as [U|(s & -> & W)]; [now left|]. right. exists s. split; [reflexivity|]. now apply whole_class.
Qed.
Definition type_dic (r : re) : cifdic := ddl2 [(u "code", r)] [(u "_a", [(u "_item_type.code", T "code")])].
Definition is_c (c : N) (x : N) : bool := (x =? c)%N.
Example C53_example : validate_item_type (type_dic (RSeq (RStar (RChr is_digit)) REol)) (u "_a") (L ["12"; "?"; "1 2"; "x"]) = Ret (RFalse [T "1 2"; T "x"] []).
Proof. vm_compute. reflexivity. Qed.
Example C53_meets : exists d name v def code p vs, dic_get d name = Ret def /\ tget (d_type_spec d) def = Some (VStr code) /\ dget str_eqb code (d_types d) = Some (RSeq (RStar (RChr p)) REol) /\
  held v vs /\ (forall a, In a vs -> is_text a = true) /\ length vs = 2.
Proof.
  exists (type_dic (RSeq (RStar (RChr is_digit)) REol)), (u "_a"), (L ["12"; "x"]), [(u "_item_type.code", T "code")], (u "code"), is_digit, (map T ["12"; "x"]).
  split; [reflexivity|]. split; [reflexivity|]. split; [reflexivity|]. split; [constructor|]. split; [|reflexivity]. intros a [<-|[<-|[]]]; reflexivity.
Qed.
(** Python takes the first alternative that matches: with a|ab the value ab is
    refused although the expression matches it. *)
Theorem C53_alternation_refuted : exists r s,
  lang r s [] /\ validate_item_type (type_dic r) (u "_a") (VStr s) = Ret (RFalse [VStr s] []).
Proof.
  exists (RAlt (RChr (is_c 97)) (RSeq (RSeq (RChr (is_c 97)) (RChr (is_c 98))) REol)), (u "ab"). split; [|vm_compute; reflexivity].
  right. exists (u "ab"), []. split; [reflexivity|]. split; [|split; [reflexivity|now left]]. exists (u "a"), (u "b"). split; [reflexivity|]. split; eexists; split; reflexivity.
Qed.
(** The empty value passes whatever the expression. *)
Theorem C53_empty_value_refuted : exists r, ~ lang r [] [] /\ validate_item_type (type_dic r) (u "_a") (VStr []) = Ret RTrue.
Proof. exists (RChr is_digit). split; [intros (x & E & _); discriminate|vm_compute; reflexivity]. Qed.

(** ** C54: children, dependents and exclusions *)
Theorem C54_children d name v def cs alts whole prov globals pvs : dic_get d name = Ret def -> child_names d def cs -> tget name globals = None -> alternates_of d cs = Ret alts -> held v pvs ->
  Forall (readable whole prov) (cs ++ alts) ->
  exists r, validate_child d name v whole prov globals = Ret r
  /\ (r = RTrue <-> Forall (child_fine pvs whole prov) (cs ++ alts))
  /\ (r <> RTrue -> exists before c after cv vs bad, cs ++ alts = before ++ c :: after /\ Forall (child_fine pvs whole prov) before
       /\ first_of (tget c prov) (tget c whole) = Some cv /\ held cv vs /\ offenders (listed pvs) vs bad /\ bad <> [] /\ r = RFalse bad [c]).
Proof. exact (child_ok d name v def cs alts whole prov globals pvs). Qed.
Theorem C54_dependents d name def deps whole prov globals : dic_get d name = Ret def -> dependent_names d def deps -> (forall a, In a deps -> exists alts, get_alternates d a false = Ret alts) ->
  exists r bad, validate_dependents d name whole prov globals = Ret r /\ offenders (satisfied d whole prov globals) deps bad /\ (bad = [] -> r = RTrue) /\ (bad <> [] -> r = RFalse [] bad).
Proof. exact (dependents_ok d name def deps whole prov globals). Qed.
Theorem C54_exclusion d name whole prov alts : get_alternates d name true = Ret alts ->
  exists r, validate_exclusion d name whole prov = Ret r /\
  (r = RTrue <-> forall a k, In a alts -> In k (tkeys whole ++ tkeys prov) -> lower a <> lower k).
Proof. exact (exclusion_ok d name whole prov alts). Qed.
Definition rel_dic : cifdic := ddl2 []
  [(u "_p", [(u "_item_linked.child_name", L ["_k"; "_m"]); (u "_item_dependent.dependent_name", L ["_k"; "_m"]); (u "_item_aliases.alias_name", T "_Old_P")]);
   (u "_k", []); (u "_m", [(u "_item_related.function_code", L ["alternate"; "alternate_exclusive"]); (u "_item_related.related_name", L ["_m2"; "_m3"])])].
Example C54_example :
  validate_child rel_dic (u "_p") (L ["1"; "2"]) [(u "_k", L ["1"; "?"]); (u "_m2", L ["3"; "1"])] [] [] = Ret (RFalse [T "3"] [u "_m2"])
  /\ validate_dependents rel_dic (u "_p") [(u "_k", T "1"); (u "_m2", T "1")] [] [] = Ret RTrue
  /\ validate_dependents rel_dic (u "_p") [(u "_m3", T "1")] [] [] = Ret (RFalse [] [u "_k"; u "_m"])
  /\ validate_exclusion rel_dic (u "_p") [(u "_old_p", T "1")] [] = Ret (RFalse [] [u "_old_p"])
  /\ validate_exclusion rel_dic (u "_m") [(u "_m2", T "1")] [] = Ret RTrue.
Proof. repeat split; vm_compute; reflexivity. Qed.
Example C54_meets : exists d name v def cs alts whole prov pvs deps, dic_get d name = Ret def /\ child_names d def cs /\ alternates_of d cs = Ret alts /\ held v pvs /\ Forall (readable whole prov) (cs ++ alts)
  /\ dependent_names d def deps /\ (forall a, In a deps -> exists alts, get_alternates d a false = Ret alts) /\ length (cs ++ alts) = 3.
Proof.
  exists rel_dic, (u "_p"), (L ["1"; "2"]), [(u "_item_linked.child_name", L ["_k"; "_m"]); (u "_item_dependent.dependent_name", L ["_k"; "_m"]); (u "_item_aliases.alias_name", T "_Old_P")],
    [u "_k"; u "_m"], [u "_m2"], [(u "_k", L ["1"; "?"]); (u "_m2", L ["3"; "1"])], [], (map T ["1"; "2"]), [u "_k"; u "_m"].
  split; [reflexivity|]. split; [exists (L ["_k"; "_m"]); split; [reflexivity|now left]|]. split; [vm_compute; reflexivity|]. split; [constructor|].
  split; [|split; [exists (L ["_k"; "_m"]); split; [reflexivity|now left]|split; [intros a [<-|[<-|[]]]; eexists; vm_compute; reflexivity|reflexivity]]].
  repeat constructor; intros cv E; vm_compute in E; try discriminate; injection E as <-; eexists; constructor.
Qed.
(** Dependents and alternates are compared without regard to case only one way:
    a name with capitals in the dictionary is never found. *)
Theorem C54_dependent_case_refuted : exists x, validate_dependents (ddl2 [] [(u "_p", [(u "_item_dependent.dependent_name", VStr x)]); (lower x, [])]) (u "_p") [(lower x, T "1")] [] [] = Ret (RFalse [] [x]).
Proof. exists (u "_K"). vm_compute. reflexivity. Qed.

(** ** C55: loops *)
Theorem C55_loop_key_exact_partial d n names def c cat keys : dic_get d n = Ret def -> tget (d_cat_spec d) def = Some (VStr c) -> dic_get d c = Ret cat -> given_keys d cat keys ->
  (forall k, In k keys -> (exists def, dic_get d k = Ret def) /\ get_alternates d k false = Ret []) ->
  exists r, validate_loop_key d (n :: names) = Ret r /\ (r = RTrue <-> forall k, In k keys -> In k (n :: names) \/ implicit d k)
  /\ (r <> RTrue -> exists k, r = RFalse [] [k] /\ In k keys /\ ~ In k (n :: names) /\ ~ implicit d k).
Proof. exact (loop_key_ok d n names def c cat keys). Qed.
Theorem C55_membership d names cs : categories_of d names = Ret cs ->
  exists r, validate_loop_membership d names = Ret r /\
  (r = RTrue <-> forall c c' p p', In c cs -> In c' cs -> dget str_eqb c (d_lookup d) = Some p -> dget str_eqb c' (d_lookup d) = Some p' -> p = p').
Proof. exact (membership_ok d names cs). Qed.
Theorem C55_membership_ddl2 d names cs : d_lookup d = [] -> categories_of d names = Ret cs -> validate_loop_membership d names = Ret RTrue.
Proof. exact (membership_ddl2 d names cs). Qed.
(** Outside DDLm the table of top categories is empty (1547), so a loop that
    mixes categories always passes. *)
Theorem C55_membership_ddl2_refuted : exists d x y, categories_of d [x; y] = Ret [u "c"; u "d"] /\ validate_loop_membership d [x; y] = Ret RTrue.
Proof.
  exists (ddl2 [] [(u "_c.x", [(u "_item.category_id", T "c")]); (u "_d.x", [(u "_item.category_id", T "d")])]), (u "_c.x"), (u "_d.x"). split; vm_compute; reflexivity.
Qed.
(** A name that must be looped is refused outside a loop, and one that must not be
    looped is refused in one; nothing else is. *)
Theorem C55_looping_exact d name v def : dget str_eqb (lower name) (d_defs d) = Some def ->
  exists r, validate_looping d name v = Ret r /\
  (r = RFalse [] [] <-> tget (d_must_loop d) def = Some (T "yes") /\ is_text v = true \/ tget (d_must_loop d) def = Some (T "no") /\ is_text v = false)
  /\ (r = RNone <-> tget (d_must_loop d) def = None).
Proof. exact (looping_ok d name v def). Qed.
(** In DDLm a loop may only hold items of categories that can be looped, and those of
    the others are named. *)
Theorem C55_looping_ddlm_exact d names cs : categories_of d names = Ret cs ->
  exists r, validate_looping_ddlm d names = Ret r /\
  (r = RTrue <-> forall c, In c cs -> dget str_eqb c (d_lookup d) <> None) /\
  (forall v bad, r = RFalse v bad -> forall n, In n bad <-> exists c, In (n, c) (combine names cs) /\ dget str_eqb c (d_lookup d) = None).
Proof. exact (looping_ddlm_ok d names cs). Qed.
Definition mixed_dic : cifdic := ddl2 [] [(u "_c.x", [(u "_item.category_id", T "c")]); (u "_d.x", [(u "_item.category_id", T "d")]); (u "c", [(u "_category_mandatory.name", L ["_c.x"; "_c.y"])]);
  (u "_c.y", [(u "_item.category_id", T "c")]); (u "e", [(u "_category_mandatory.name", T "_e.k")]); (u "_e.k", [(u "_item.category_id", T "e")]);
  (u "f", [(u "_category_mandatory.name", L ["_f.k"])]); (u "_f.k", [(u "_item.category_id", T "f"); (u "_item_aliases.alias_name", T "_f.old")]); (u "_f.old", [(u "_item.category_id", T "f")])].
Definition ddl1_dic (lookup : list (str * str)) : cifdic :=
  mkDic [(u "_c_x", [(u "_list", T "yes"); (u "_category", T "c")]); (u "_d_x", [(u "_list", T "no"); (u "_category", T "d")])] [] (u "_type") (u "_type") (u "_type_conditions") (u "_enumeration") (u "_list")
    (u "_list_link_parent") (u "_list_link_child") (u "_category") (u "_list_mandatory") (u "xxx") (u "_related_function") (u "_related_item") (u "xxx") (u "_list_reference") lookup.
Example C55_meets_looping :
  validate_looping (ddl1_dic []) (u "_c_x") (T "1") = Ret (RFalse [] []) /\ validate_looping (ddl1_dic []) (u "_C_x") (L ["1"]) = Ret RTrue
  /\ validate_looping (ddl1_dic []) (u "_d_x") (T "1") = Ret RTrue /\ validate_looping (ddl1_dic []) (u "_d_x") (L ["1"]) = Ret (RFalse [] [])
  /\ validate_looping_ddlm (ddl1_dic [(u "c", u "c")]) [u "_c_x"; u "_d_x"] = Ret (RFalse [] [u "_d_x"])
  /\ validate_looping_ddlm (ddl1_dic [(u "c", u "c"); (u "d", u "c")]) [u "_c_x"; u "_d_x"] = Ret RTrue.
Proof. repeat split; vm_compute; reflexivity. Qed.
Example C55_example :
  categories_of mixed_dic [u "_c.x"; u "_d.x"] = Ret [u "c"; u "d"] /\ validate_loop_membership mixed_dic [u "_c.x"; u "_d.x"] = Ret RTrue
  /\ validate_loop_key mixed_dic [u "_c.x"] = Ret (RFalse [] [u "_c.y"]) /\ validate_loop_key mixed_dic [u "_c.x"; u "_c.y"] = Ret RTrue.
Proof. repeat split; vm_compute; reflexivity. Qed.
Example C55_meets : exists d n (names : list str) def c cat keys, dic_get d n = Ret def /\ tget (d_cat_spec d) def = Some (VStr c) /\ dic_get d c = Ret cat /\ given_keys d cat keys
  /\ (forall k, In k keys -> (exists def, dic_get d k = Ret def) /\ get_alternates d k false = Ret []) /\ length keys = 2 /\ length names = 1.
Proof.
  exists mixed_dic, (u "_c.x"), [u "_d.x"], [(u "_item.category_id", T "c")], (u "c"), [(u "_category_mandatory.name", L ["_c.x"; "_c.y"])], [u "_c.x"; u "_c.y"].
  split; [reflexivity|]. split; [reflexivity|]. split; [reflexivity|]. split; [right; left; reflexivity|]. split; [|split; reflexivity].
  intros k [<-|[<-|[]]]; (split; [eexists; vm_compute; reflexivity|vm_compute; reflexivity]).
Qed.
(** A single key name is taken character by character and raises KeyError even
    when the key is there. *)
Theorem C55_single_key_refuted : exists k cat, dic_get mixed_dic (u "e") = Ret cat /\ tget (u "_category_mandatory.name") cat = Some (VStr k) /\ validate_loop_key mixed_dic [k] = Raise KeyErr.
Proof. exists (u "_e.k"). eexists. split; [vm_compute; reflexivity|]. split; vm_compute; reflexivity. Qed.
(** An alternate of the key does not help although it is in the loop. *)
Theorem C55_alternate_key_refuted : exists k a, get_alternates mixed_dic k false = Ret [a] /\ validate_loop_key mixed_dic [a] = Ret (RFalse [] [k]).
Proof. exists (u "_f.k"), (u "_f.old"). split; vm_compute; reflexivity. Qed.

(** ** C56: standard uncertainties *)
Theorem C56_esd_exact d name v def vs : dic_get d name = Ret def -> tget (d_primitive d) def = Some (VStr (u "numb")) -> tget (d_esd_spec d) def <> Some (VStr (u "esd")) ->
  held v vs -> (forall a, In a vs -> is_text a = true) ->
  exists x, validate_item_esd d name v = Ret x /\ verdict (fun a => forall s n, a = VStr s -> longest n s -> uncertainty n = None) vs x [].
Proof. exact (esd_ok d name v def vs). Qed.
Example C56_example : validate_item_esd (ddl2 [] [(u "_a", [(u "_type", T "numb")])]) (u "_a") (L ["1.2"; "1.2(3)"; "?"; "4(1)"]) = Ret (RFalse [T "1.2(3)"; T "4(1)"] []).
Proof. vm_compute. reflexivity. Qed.

Definition validate_theorems := (C42_ranges_exact, C42_ranges_pass, C42_no_range, C42_single_range_refuted, C42_trailing_text_refuted, C43_enumeration_exact, C43_enumeration_pass, C43_no_enumeration, C43_single_value_refuted,
  C44_unique_sound, C44_unique_exact_partial, C44_space_refuted, C45_parent_exact, C45_parent_pass, C45_parent_absent, C45_alternate_case_refuted, C46_valid_iff_no_failure, C46_runs_iff_checks_return, C46_order_irrelevant,
  C53_type_sound, C53_class_type_exact_partial, C53_alternation_refuted, C53_empty_value_refuted, C54_children, C54_dependents, C54_exclusion, C54_dependent_case_refuted,
  C55_loop_key_exact_partial, C55_membership, C55_looping_exact, C55_looping_ddlm_exact, C55_membership_ddl2, C55_membership_ddl2_refuted, C55_single_key_refuted, C55_alternate_key_refuted, C56_esd_exact).
Print Assumptions validate_theorems.
