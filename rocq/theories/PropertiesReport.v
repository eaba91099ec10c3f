(** C95-C98: validating a file, the reports about it, and the topmost item of a
    definition. *)
From Coq Require Import String Ascii List NArith ZArith Bool Permutation.
From Verif Require Import PyBase PyFacts StarBlockModel StarBlockSpec StarBlockProofs2 StarBlockProofs5 PropertiesBlock ValidateModel ValidBlockModel ValidBlockSpec PropertiesValidate PropertiesValidBlock ReportModel ReportSpec ReportProofs ReportProofs2.
Import ListNotations.
Open Scope string_scope.
Open Scope list_scope.
Open Scope nat_scope.

(** ** C95: Validate *)
(** Every block has its result and its names that are not in the dictionary; the result
    is that of the checks on the items that are. *)
Theorem C95_results d f f' vr nm : Forall (fun x => WF (snd x)) f -> validate d f = (f', Ret (vr, nm)) ->
  Forall2 (fun x x' => fst x' = fst x /\ only_known d (snd x) (snd x')) f f'
  /\ Forall2 (fun x' r => fst r = fst x' /\ block_checks d (snd x') = Ret (snd r)) f' vr
  /\ Forall2 (fun x m => fst m = fst x /\ unknown d (snd x) (snd m)) f nm.
Proof. exact (validate_ret d f f' vr nm). Qed.
(** A block is called valid exactly if its known items pass all checks. *)
Theorem C95_verdict d f f' vr nm : Forall (fun x => WF (snd x) /\ no_empty_loop (snd x)) f -> validate d f = (f', Ret (vr, nm)) ->
  Forall2 (fun x r => fst r = fst x /\ exists b', only_known d (snd x) b' /\ (fst (snd r) = true <-> block_ok d b')) f vr.
Proof.
  intros W H. assert (Forall (fun x => WF (snd x)) f) as W1 by (eapply Forall_impl; [|exact W]; now intros x [X _]).
  destruct (validate_ret d f f' vr nm W1 H) as (A & B & _). clear H W1 nm. revert vr B. induction A as [|x x' f f' [E Q] A IH]; intros vr B; inversion B as [|? r ? vr' [E2 C] B']; subst; [constructor|].
  inversion W as [|? ? [Wx Nx] W']; subst. constructor; [|now apply IH]. split; [congruence|]. exists (snd x'). split; [exact Q|]. apply verdict_ok; [exact (known_no_empty d _ _ Nx Q)|exact C].
Qed.
(** Validating again gives the same results, and finds no unknown names. *)
Theorem C95_again d f f' vr nm : Forall (fun x => WF (snd x)) f -> validate d f = (f', Ret (vr, nm)) ->
  validate d f' = (f', Ret (vr, map (fun m => (fst m, [])) nm)).
Proof. exact (validate_again d f f' vr nm). Qed.
(** Only a check that fails to finish keeps a file from being validated. *)
Theorem C95_fails d f f' e : Forall (fun x => WF (snd x)) f -> validate d f = (f', Raise e) ->
  (exists n b b', In (n, b) f /\ only_known d b b' /\ block_checks d b' = Raise e)
  /\ Forall2 (fun x x' => fst x' = fst x /\ (snd x' = snd x \/ only_known d (snd x) (snd x'))) f f'.
Proof. exact (validate_raise d f f' e). Qed.
Definition data1 : block := run_ops [OAdd (u "_c.x") (T "a"); OAdd (u "_Other") (T "z"); OAdd (u "_c.y") (T "1")] (empty_block true (-1) false).
Definition data2 : block := run_ops [OAdd (u "_c.x") (L ["a"; "q"]); OAdd (u "_l1") (L ["1"; "2"]); OCreate [u "_l1"; u "_c.x"] (-1)] (empty_block true (-1) false).
Lemma ops_ok os ov m un : Forall admissible os -> Forall no_loop_shrink os -> WF (run_ops os (empty_block ov m un)) /\ no_empty_loop (run_ops os (empty_block ov m un)).
Proof. intros A B. split; [exact (run_ops_wf os _ (empty_wf ov m un) A)|now apply C09_no_empty_loop_partial]. Qed.
Definition one_file : ReportModel.file := [(u "one", data1); (u "two", data2)].
Lemma one_file_ok : Forall (fun x => WF (snd x) /\ no_empty_loop (snd x)) one_file.
Proof.
  constructor; [|constructor; [|constructor]].
  - apply ops_ok; repeat constructor.
  - apply ops_ok; [|repeat constructor; discriminate]. constructor; [exact Logic.I|]. constructor; [exact Logic.I|]. constructor; [|constructor]. cbn. constructor; [intros [X|[]]; discriminate X|]. constructor; [easy|constructor].
Qed.
Example C95_meets : Forall (fun x => WF (snd x) /\ no_empty_loop (snd x)) one_file /\ exists f' vr nm, validate (vd enum_d) one_file = (f', Ret (vr, nm))
  /\ nm = [(u "one", [u "_other"]); (u "two", [u "_l1"])] /\ map (fun r => (fst r, fst (snd r))) vr = [(u "one", true); (u "two", false)]
  /\ map (fun x => b_loops (snd x)) f' = [[]; [(1%Z, [u "_c.x"])]].
Proof.
  split; [exact one_file_ok|]. eexists. eexists. eexists. split; [vm_compute; reflexivity|]. split; [vm_compute; reflexivity|]. split; vm_compute; reflexivity.
Qed.
(** A file that has been validated has lost the items that are not in the dictionary. *)
Theorem C95_unchanged_refuted : exists d f f' r n b b' k v, Forall (fun x => WF (snd x)) f /\ validate d f = (f', Ret r) /\ In (n, b) f /\ In (n, b') f'
  /\ get_item k b = Ret v /\ get_item k b' = Raise KeyErr.
Proof.
  exists (vd enum_d), one_file. eexists. eexists. exists (u "one"), data1. eexists. exists (u "_Other"), (T "z").
  split; [eapply Forall_impl; [|exact one_file_ok]; now intros x [X _]|]. split; [vm_compute; reflexivity|]. split; [now left|]. split; [left; reflexivity|]. split; vm_compute; reflexivity.
Qed.

(** ** C96: reports *)
(** A report has the verdict on each block, the names not found, and every failed check
    exactly once, under the explanation of its kind, with the item and what was found. *)
Theorem C96_shows repr_ str_ str_list html vr nm s : validate_report repr_ str_ str_list vr nm html = Ret s -> report_shows repr_ str_ str_list html vr nm s.
Proof. exact (report_ok repr_ str_ str_list html vr nm s). Qed.
(** There is a report exactly if all kinds of failure have explanations (and in plain
    text the wrong values can be gone through). *)
Theorem C96_total repr_ str_ str_list html vr nm : (exists s, validate_report repr_ str_ str_list vr nm html = Ret s) <->
  Forall (fun b => In (fst b) (map fst nm) /\ explained (snd (snd b)) /\ (html = true \/ listable (snd (snd b)))) vr.
Proof. exact (report_total repr_ str_ str_list html vr nm). Qed.
(** All checks of dictionaries in DDL1 and DDL2 have explanations. *)
Theorem C96_ddl12 es : Forall (fun x => In (fst (fst x)) installed_ddl12) (failures es) -> explained es.
Proof.
  intros H. eapply Forall_impl; [|exact H]. intros x X. assert (Forall (fun n => mem str_eqb n (map fst info_table) = true) installed_ddl12) as K by (repeat constructor; vm_compute; reflexivity).
  rewrite Forall_forall in K. apply (mem_In str_eqb str_eqb_spec). now apply K.
Qed.
Definition plain_repr (v : value) : str := match v with VStr s => u "'" ++ s ++ u "'" | _ => u "?" end.
Definition plain_list (l : list str) : str := u "[" ++ concat l ++ u "]".
Definition found : errors :=
  [(u "_c.x", [(u "validate_item_enum", mkErr (Some (L ["q"])) None None None); (u "validate_parent", mkErr None None None (Some (T "_d.k")))]);
   (u "_c.y", [(u "validate_item_enum", mkErr (Some (L ["r"; "s"])) None None None)])].
Definition sample_results : valid_results := [(u "one", (true, [])); (u "two", (false, found))].
Definition sample_missing : no_matches := [(u "one", [u "_other"]); (u "two", [])].
Example C96_meets : Forall (fun x => In (fst (fst x)) installed_ddl12) (failures found) /\ listable found /\ length (failures found) = 3
  /\ exists s, validate_report plain_repr plain_repr plain_list sample_results sample_missing false = Ret s
  /\ s = u "Validation results" ++ nl ++ u "------------------" ++ nl ++ nl ++ u " Block 'one' is VALID" ++ nl
    ++ nl ++ u " The following items were not found in the dictionary:" ++ nl ++ u "Note that this does not invalidate the data block" ++ nl ++ u "_other" ++ nl
    ++ nl ++ u " Block 'two' is INVALID" ++ nl
    ++ nl ++ nl ++ u " The following data items have values outside permitted set:" ++ nl ++ nl
    ++ u "Item name                               Bad value(s)        " ++ nl
    ++ nl ++ u "_c.x                                    ['q']               "
    ++ nl ++ u "_c.y                                    ['r''s']            " ++ nl ++ nl
    ++ nl ++ nl ++ u " A parent dataname is missing or contains different values:" ++ nl ++ nl
    ++ u "Item name                               Parent              " ++ nl
    ++ nl ++ u "_c.x                                    '_d.k'              " ++ nl ++ nl.
Proof.
  split; [repeat constructor; cbn; tauto|]. split; [repeat constructor; cbn; intros v [= <-]; eexists; reflexivity|]. split; [reflexivity|]. eexists. split; [vm_compute; reflexivity|]. vm_compute. reflexivity.
Qed.
(** Two checks of dictionaries in DDLm have none: when they fail there is no report. *)
Theorem C96_ddlm_refuted : exists es, Forall (fun x => In (fst (fst x)) installed_ddlm) (failures es) /\ listable es /\ length (failures es) = 1
  /\ forall repr_ str_ str_list html, validate_report repr_ str_ str_list [(u "x", (false, es))] [(u "x", [])] html = Raise KeyErr.
Proof.
  exists [(u "_c.x", [(u "validate_item_esd_ddlm", mkErr (Some (L ["1(2)"])) None None None)])]. split; [repeat constructor; cbn; tauto|]. split; [repeat constructor; cbn; intros v [= <-]; eexists; reflexivity|].
  split; [reflexivity|]. intros r s l [|]; reflexivity.
Qed.
(** A repeated key of several columns is one text (2571); the report gives its letters
    as so many wrong values. *)
Theorem C96_text_refuted : exists k a b, k <> a /\ k <> b /\ forall repr_ str_list item,
  text_row repr_ str_list (item, mkErr (Some (VStr k)) None None None) = text_row repr_ str_list (item, mkErr (Some (VList [VStr a; VStr b])) None None None).
Proof. exists (u "ab"), (u "a"), (u "b"). split; [discriminate|]. split; [discriminate|]. reflexivity. Qed.
(** The columns are headed by what was found in the first row: what only a later row has
    stands under the wrong heading. *)
Theorem C96_columns_refuted : exists rs : rows, Exists (fun r => e_values (snd r) <> None) rs /\ forall repr_ str_list expl s, error_report repr_ str_list expl rs = Ret s ->
  exists body, s = nl ++ nl ++ u " " ++ expl ++ u ":" ++ nl ++ nl ++ ljust 40 (u "Item name") ++ ljust 20 (u "Parent") ++ nl ++ body.
Proof.
  exists [(u "_a", mkErr None None None (Some (T "_p"))); (u "_b", mkErr (Some (L ["1"])) None None (Some (T "_p")))]. split; [right; left; discriminate|].
  intros r l expl s H. unfold error_report in H. apply ValidBlockProofs.obind_ret in H as (body & _ & H). apply Ret_inj in H. subst s. exists body. reflexivity.
Qed.
(** Names and values go into the HTML report as they are. *)
Theorem C96_html_refuted : exists item e markup, within markup item /\ markup = u "<script>" /\ (exists n, check_data_name 75 false item = Ret n)
  /\ forall str_, within markup (html_row str_ (item, e)).
Proof.
  exists (u "_a<script>"), (mkErr None None None None), (u "<script>"). split; [exists (u "_a"), []; reflexivity|]. split; [reflexivity|]. split; [eexists; vm_compute; reflexivity|].
  intros s. unfold html_row. cbn [fst]. apply within_r, within_l. exists (u "_a"), []. reflexivity.
Qed.

(** ** C97: ValidationResult *)
Theorem C97_is_valid vr n ok es : NoDup (map fst vr) -> In (n, (ok, es)) vr -> (is_valid vr (Some n) = Ret true <-> ok = true /\ es = []) /\ exists r, is_valid vr (Some n) = Ret r.
Proof.
  intros N H. unfold is_valid. rewrite (dget_In_NoDup str_eqb str_eqb_spec _ _ _ N H). split; [|eauto]. destruct ok, es; cbn; split; try (intros [= ]); try (intros [A B]); try discriminate; auto.
Qed.
Theorem C97_no_matches nm n l : NoDup (map fst nm) -> In (n, l) nm -> (has_no_match_items nm (Some n) = Ret true <-> l <> []) /\ exists r, has_no_match_items nm (Some n) = Ret r.
Proof.
  intros N H. unfold has_no_match_items. rewrite (dget_In_NoDup str_eqb str_eqb_spec _ _ _ N H). split; [|eauto]. destruct l; split; try discriminate; try reflexivity. now intros X.
Qed.
Example C97_meets : NoDup (map fst sample_results) /\ is_valid sample_results (Some (u "one")) = Ret true /\ is_valid sample_results (Some (u "two")) = Ret false
  /\ has_no_match_items sample_missing (Some (u "one")) = Ret true.
Proof. split; [repeat constructor; cbn; intuition discriminate|]. repeat split. Qed.
(** Neither can be asked about the whole file, although that is the default. *)
Theorem C97_whole_file_refuted : exists vr nm, Forall (fun b => fst (snd b) = true) vr /\ length vr = 1 /\ is_valid vr None = Raise AttributeErr /\ has_no_match_items nm None = Raise AttributeErr.
Proof. exists [(u "one", (true, []))], [(u "one", [])]. split; [repeat constructor|]. repeat split. Qed.

(** ** C98: find_parent *)
Theorem C98_topmost def names ch p x : tget (u "_item.name") def = Some (VList (map VStr names)) -> NoDup names ->
  tget (u "_item_linked.child_name") def = Some (VList (map VStr ch)) -> tget (u "_item_linked.parent_name") def = Some p ->
  (find_parent def = Ret (Some (VStr x)) <-> topmost names ch x).
Proof. exact (find_parent_list def names ch p x). Qed.
Theorem C98_single def s : tget (u "_item.name") def = Some (VStr s) -> find_parent def = Ret (Some (VStr s)).
Proof. exact (find_parent_single def s). Qed.
Theorem C98_category def : tget (u "_item.name") def = None -> find_parent def = Ret None.
Proof. exact (find_parent_none def). Qed.
Definition linked (names ch : value) : table := [(u "_item.name", names); (u "_item_linked.child_name", ch); (u "_item_linked.parent_name", T "_a.id")].
Example C98_meets : find_parent (linked (L ["_b.id"; "_a.id"; "_c.id"]) (L ["_c.id"; "_b.id"])) = Ret (Some (T "_a.id"))
  /\ topmost [u "_b.id"; u "_a.id"; u "_c.id"] [u "_c.id"; u "_b.id"] (u "_a.id").
Proof. split; [vm_compute; reflexivity|]. split; [right; now left|]. split; [intros [X|[X|[]]]; discriminate X|]. intros y [<-|[<-|[<-|[]]]] H; [destruct H; right; now left|reflexivity|destruct H; now left]. Qed.
(** With one child, given as a single text, names are looked for inside that text: an
    item whose name begins the name of its child is not found. *)
Theorem C98_one_child_refuted : exists names c x, topmost names [c] x /\ find_parent (linked (VList (map VStr names)) (VStr c)) = Raise CifErr.
Proof.
  exists [u "_a.id"; u "_a.id_2"], (u "_a.id_2"), (u "_a.id"). split; [|vm_compute; reflexivity]. split; [now left|]. split; [intros [X|[]]; discriminate X|]. intros y [<-|[<-|[]]] H; [reflexivity|destruct H; now left].
Qed.

Definition report_theorems := (C95_results, C95_verdict, C95_again, C95_fails, C95_unchanged_refuted, C96_shows, C96_total, C96_ddl12, C96_ddlm_refuted, C96_text_refuted, C96_columns_refuted, C96_html_refuted,
  C97_is_valid, C97_no_matches, C97_whole_file_refuted, C98_topmost, C98_single, C98_category, C98_one_child_refuted).
Print Assumptions report_theorems.
