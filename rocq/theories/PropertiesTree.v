(** C48, C57-C59: the category tree, the table of definitions, the category parent
    table and the expansion of categories. *)
From Coq Require Import String Ascii List Arith NArith Bool Lia.
From Verif Require Import PyBase PyFacts StarBlockModel ValidateModel TreeModel TreeSpec TreeProofs TreeProofs2.
Import ListNotations.
Open Scope string_scope.
Open Scope list_scope.
Open Scope nat_scope.

Definition text (s : string) : value := VStr (u s).
Definition cat_def (parent class : string) : table := [(u "_definition.scope", text "Category"); (u "_definition.class", text class); (u "_name.category_id", text parent)].
Definition item_def (parent : string) : table := [(u "_name.category_id", text parent); (u "_name.object_id", text "x")].
(** A dictionary: head, two nested loop categories, items in each, an item whose
    category is not defined and a category hanging from a missing one. *)
Definition dict0 : defs :=
  [(u "core", cat_def "CORE_DIC" "Head"); (u "atom", cat_def "core" "Loop"); (u "_atom.x", item_def "ATOM");
   (u "aniso", cat_def "Atom" "Loop"); (u "_aniso.u", item_def "aniso"); (u "_lost.x", item_def "lost");
   (u "extra", cat_def "lost" "Set"); (u "_extra.y", item_def "extra")].
Definition height0 (a : str) : nat :=
  if str_eqb a (u "core_dic") then 4 else if str_eqb a (u "core") then 3 else if str_eqb a (u "lost") then 3 else if str_eqb a (u "atom") then 2 else if str_eqb a (u "extra") then 2 else if str_eqb a (u "aniso") then 1 else 0.
Lemma dict0_wf : well_formed dict0.
Proof.
  constructor.
  - apply has_dup_spec. vm_compute. reflexivity.
  - intros k t H. repeat (destruct H as [H|H]; [injection H as <- _; reflexivity|]). destruct H.
  - intros k t v H. repeat (destruct H as [H|H]; [injection H as _ <-; cbn; intros E; injection E as <-; eexists; reflexivity|]). destruct H.
Qed.
Lemma dict0_acyclic : acyclic dict0 height0.
Proof.
  intros a c (t & H & K) (t' & H' & S). repeat (destruct H as [H|H]; [injection H as <- <-; destruct K as [(s & E & <-)|(E & _)]; [injection E as <-|discriminate E]; (vm_compute; lia) || (exfalso; repeat (destruct H' as [H'|H']; [first [discriminate H'|injection H' as <-; discriminate S]|]); destruct H')|]). destruct H.
Qed.
Lemma dict0_head : only_head dict0 (u "core").
Proof. apply (proj1 (root_unique dict0 (u "core") dict0_wf)). vm_compute. reflexivity. Qed.

(** ** C48 *)
(** The descendants of a category and itself, each once. *)
Theorem C48_all_children n d c l : well_formed d -> all_children n d c = Ret l -> forall a, In a l <-> under d c a.
Proof. intros W. now apply all_children_under. Qed.
Theorem C48_all_children_once n d c l height : well_formed d -> acyclic d height -> (In c (map fst d) -> category d c) -> all_children n d c = Ret l -> NoDup l.
Proof. apply all_children_once. Qed.
Theorem C48_all_children_total n d c height : well_formed d -> acyclic d height -> height (lower c) < n -> exists l, all_children n d c = Ret l.
Proof. apply all_children_total. Qed.
Theorem C48_semantic_child n d p a height : well_formed d -> acyclic d height -> height (lower p) < n -> exists b, is_semantic_child n d p a = Ret b /\ (b = true <-> under d p a).
Proof.
  intros W A L. destruct (all_children_total n d p height W A L) as (l & E). eexists. assert (is_semantic_child n d p a = Ret (smem a l)) as E' by (unfold is_semantic_child; now rewrite E). split; [exact E'|]. now apply (semantic_child_iff n d p a).
Qed.
(** Danglers are the definitions whose category is not defined as a category, and
    what is below those. *)
Theorem C48_danglers n d height top : well_formed d -> acyclic d height -> only_head d top -> height top < n ->
  exists l, danglers n d = Ret l /\ forall a, In a l <-> In a (map fst d) /\ loose d top a.
Proof. intros W A O L. destruct (danglers_total n d height top W A O L) as (l & E). exists l. split; [exact E|]. now apply (danglers_ok n d height top). Qed.
(** No danglers exactly if every definition but the head names the head or a
    category that is defined. *)
Theorem C48_connected n d height top : well_formed d -> acyclic d height -> only_head d top -> height top < n ->
  (danglers n d = Ret [] <-> forall a c, child d a c -> a <> top -> lower c <> top -> category d (lower c)).
Proof.
  intros W A O L. destruct (danglers_total n d height top W A O L) as (l & E). pose proof (danglers_ok n d height top l W A O E) as H. rewrite E. split.
  - intros K a c Hc Na Nc. injection K as ->. destruct (category_dec d (lower c) W) as [C|C]; [exact C|]. destruct (proj2 (H a)). split; [now apply (child_key d a c)|]. now apply (lo_none d top a c).
  - intros K. f_equal. destruct l as [|x l]; [reflexivity|]. destruct (proj1 (H x) (or_introl eq_refl)) as [_ Lo]. exfalso. clear -Lo K. induction Lo as [a c Na Hc Nc Cc|a c Na Hc Nc Lo IH]; [|exact IH]. apply Cc. now apply (K a c).
Qed.
(** Without a single Head the error is a TypeError, not a CifError. *)
Theorem C48_no_head d : well_formed d -> (forall top, ~ only_head d top) -> root_category d = Raise TypeErr.
Proof. intros W N. destruct (root_error d) as [E|(top & E)]; [exact E|]. elim (N top). now apply (root_unique d top W). Qed.
Theorem C48_head d top : well_formed d -> (root_category d = Ret top <-> only_head d top).
Proof. intros W. now apply root_unique. Qed.
(** A category below itself: the walk never ends. *)
Theorem C48_cycle_refuted : exists d c, well_formed d /\ category d c /\ forall n, all_children n d c = Raise OutOfFuel.
Proof.
  exists [(u "a", cat_def "b" "Set"); (u "b", cat_def "a" "Set")], (u "a"). split; [|split].
  - constructor.
    + apply has_dup_spec. vm_compute. reflexivity.
    + intros k t H. repeat (destruct H as [H|H]; [injection H as <- _; reflexivity|]). destruct H.
    + intros k t v H. repeat (destruct H as [H|H]; [injection H as _ <-; cbn; intros E; injection E as <-; eexists; reflexivity|]). destruct H.
  - eexists. split; [now left|reflexivity].
  - assert (forall n, all_children n [(u "a", cat_def "b" "Set"); (u "b", cat_def "a" "Set")] (u "a") = Raise OutOfFuel /\ all_children n [(u "a", cat_def "b" "Set"); (u "b", cat_def "a" "Set")] (u "b") = Raise OutOfFuel) as G; [|intros n; apply G].
    induction n as [|n [I1 I2]]; [now split|]. split.
    + change (all_children (S n) _ (u "a")) with (obind (obind (all_children n [(u "a", cat_def "b" "Set"); (u "b", cat_def "a" "Set")] (u "b")) (fun l => Ret ([] ++ l))) (fun l => Ret (l ++ [u "a"]))). now rewrite I2.
    + change (all_children (S n) _ (u "b")) with (obind (obind (all_children n [(u "a", cat_def "b" "Set"); (u "b", cat_def "a" "Set")] (u "a")) (fun l => Ret ([] ++ l))) (fun l => Ret (l ++ [u "b"]))). now rewrite I1.
Qed.
(** The test is case sensitive although names of definitions are not. *)
Theorem C48_semantic_child_case_refuted : exists n d p a a', well_formed d /\ lower a = lower a' /\ is_semantic_child n d p a = Ret true /\ is_semantic_child n d p a' = Ret false.
Proof. exists 5, dict0, (u "core"), (u "_atom.x"), (u "_ATOM.X"). split; [exact dict0_wf|]. split; [reflexivity|]. split; vm_compute; reflexivity. Qed.
Example C48_example : all_children 5 dict0 (u "core") = Ret [u "_atom.x"; u "_aniso.u"; u "aniso"; u "atom"; u "core"] /\ danglers 5 dict0 = Ret [u "_lost.x"; u "extra"; u "_extra.y"].
Proof. split; vm_compute; reflexivity. Qed.
Example C48_meets : exists l, danglers 5 dict0 = Ret l /\ forall a, In a l <-> In a (map fst dict0) /\ loose dict0 (u "core") a.
Proof. apply (C48_danglers 5 dict0 height0 (u "core") dict0_wf dict0_acyclic dict0_head). vm_compute. lia. Qed.

(** ** C57 *)
(** Ids that differ ignoring case: every definition is found by its id in any case,
    and nothing else is. *)
Theorem C57_definitions cat_id def_id tops blocks ids : Forall2 (id_of cat_id def_id) blocks ids -> NoDup (map lower ids) -> NoDup (map fst blocks) -> (forall b, In b blocks -> lower (fst b) = fst b) ->
  exists tbl, def_block_table cat_id def_id tops blocks = Ret tbl
    /\ (forall b i key, In b blocks -> id_of cat_id def_id b i -> ~ In (fst b) tops -> lower key = lower i -> get_definition tbl blocks key = Ret (snd b))
    /\ (forall key, def_contains tbl key = true <-> exists b i, In b blocks /\ id_of cat_id def_id b i /\ ~ In (fst b) tops /\ lower key = lower i).
Proof. apply table_ok. Qed.
Theorem C57_duplicates cat_id def_id tops blocks ids : Forall2 (id_of cat_id def_id) blocks ids -> ~ NoDup ids -> def_block_table cat_id def_id tops blocks = Raise CifErr.
Proof. apply table_dup. Qed.
Definition def_blocks : list (str * table) := [(u "dic", []); (u "x", [(u "_definition.id", text "_Atom.X")]); (u "y", [(u "_definition.id", text "_atom.y")])].
(** Ids that differ only in case: no error, and one definition is lost. *)
Theorem C57_case_duplicates_refuted : exists cat_id def_id tops blocks b i tbl t, In b blocks /\ id_of cat_id def_id b i /\ ~ In (fst b) tops
  /\ def_block_table cat_id def_id tops blocks = Ret tbl /\ get_definition tbl blocks i = Ret t /\ t <> snd b.
Proof.
  exists (u "_category.id"), (u "_definition.id"), [], [(u "x", [(u "_definition.id", text "_Atom.X")]); (u "y", [(u "_definition.id", text "_atom.x")])], (u "x", [(u "_definition.id", text "_Atom.X")]), (u "_Atom.X").
  eexists. eexists. split; [now left|]. split; [right; left; now split|]. split; [intros []|]. split; [vm_compute; reflexivity|]. split; [vm_compute; reflexivity|]. intros E. vm_compute in E. discriminate E.
Qed.
(** A definition added later is not found unless its id is in lower case. *)
Theorem C57_added_refuted : exists tbl id key, def_contains (def_set tbl id key) id = false.
Proof. exists [], (u "_Atom.X"), (u "x"). vm_compute. reflexivity. Qed.
Theorem C57_added tbl id key : lower id = id -> def_contains (def_set tbl id key) id = true.
Proof. intros E. unfold def_contains, def_set, dmem. rewrite E, ValidateProofs3.dget_dset_same. reflexivity. Qed.
Example C57_example : exists tbl, def_block_table (u "_category.id") (u "_definition.id") [u "dic"] def_blocks = Ret tbl /\ def_contains tbl (u "_ATOM.x") = true /\ def_contains tbl (u "dic") = false /\ get_definition tbl def_blocks (u "_atom.Y") = Ret [(u "_definition.id", text "_atom.y")].
Proof. eexists. split; [vm_compute; reflexivity|]. repeat split. Qed.
Example C57_meets : Forall2 (id_of (u "_category.id") (u "_definition.id")) def_blocks [u "dic"; u "_Atom.X"; u "_atom.y"] /\ NoDup (map lower [u "dic"; u "_Atom.X"; u "_atom.y"]) /\ NoDup (map fst def_blocks) /\ forall b, In b def_blocks -> lower (fst b) = fst b.
Proof.
  split; [constructor; [right; right; repeat split|constructor; [right; left; now split|constructor; [right; left; now split|constructor]]]|]. split; [apply has_dup_spec; vm_compute; reflexivity|]. split; [apply has_dup_spec; vm_compute; reflexivity|].
  intros b H. repeat (destruct H as [<-|H]; [reflexivity|]). destruct H.
Qed.

(** ** C58 *)
Theorem C58_parent_lookup n d l : well_formed d -> parent_lookup n d = Ret l -> forall c p, In (c, p) l <-> category d c /\ looped d c /\ top_loop d c p.
Proof. apply parent_lookup_ok. Qed.
Theorem C58_parent_lookup_total n d rank : well_formed d -> rising d rank -> (forall c, looped d c -> rank c <= n) -> exists l, parent_lookup n d = Ret l.
Proof. apply parent_lookup_total. Qed.
(** The uppermost category is unique, is a loop category if the category is, and
    names no loop category. *)
Theorem C58_top d c p : well_formed d -> looped d c -> top_loop d c p -> looped d p /\ (forall p', top_loop d c p' -> p' = p) /\ top_loop d p p.
Proof.
  intros W Lc T. split; [|split].
  - revert Lc. induction T as [|c t s p H1 H2 H3 H4 IH]; auto.
  - intros p' T'. symmetry. now apply (top_loop_unique d c).
  - clear Lc. induction T as [c t s H1 H2 H3|c t s p H1 H2 H3 H4 IH]; [now apply (tl_top d c t s)|exact IH].
Qed.
(** A loop category that is its own parent: the loop never ends. *)
Theorem C58_own_parent_refuted : exists d, well_formed d /\ forall n, parent_lookup n d = Raise OutOfFuel.
Proof.
  exists [(u "a", cat_def "A" "Loop")]. split.
  - constructor.
    + apply has_dup_spec. vm_compute. reflexivity.
    + intros k t [H|[]]. injection H as <- _. reflexivity.
    + intros k t v [H|[]]. injection H as _ <-. cbn. intros E. injection E as <-. eexists. reflexivity.
  - intros n. unfold parent_lookup. assert (climb n [(u "a", cat_def "A" "Loop")] (u "a") = Raise OutOfFuel) as E.
    { induction n as [|n IH]; [reflexivity|]. change (climb (S n) [(u "a", cat_def "A" "Loop")] (u "a")) with (climb n [(u "a", cat_def "A" "Loop")] (u "a")). exact IH. }
    change (looped_cats [(u "a", cat_def "A" "Loop")]) with [u "a"]. cbn [climb_all]. now rewrite E.
Qed.
Example C58_example : parent_lookup 5 dict0 = Ret [(u "atom", u "atom"); (u "aniso", u "atom")].
Proof. vm_compute. reflexivity. Qed.
Example C58_meets : exists l, parent_lookup 4 dict0 = Ret l.
Proof.
  apply (C58_parent_lookup_total 4 dict0 (fun a => if str_eqb a (u "aniso") then 1 else 0) dict0_wf).
  - intros c t H (t' & H' & K). repeat (destruct H as [H|H]; [injection H as <- <-; eexists; split; [reflexivity|]; intros (t2 & H2 & K2); (vm_compute; lia) || (exfalso; repeat (destruct H2 as [H2|H2]; [first [discriminate H2|injection H2 as <-; discriminate K2]|]); contradiction H2) || (exfalso; repeat (destruct H' as [H'|H']; [first [discriminate H'|injection H' as <-; discriminate K]|]); contradiction H')|]). destruct H.
  - intros c _. destruct (str_eqb c (u "aniso")); lia.
Qed.

(** ** C59 *)
Theorem C59_expand n d names height : well_formed d -> acyclic d height -> (forall c, In c names -> category d (lower c) -> S (height (lower c)) < n) -> 0 < n ->
  exists l, expand n d names = Ret l /\ forall a, In a l <-> exists c, In c names /\ stands_for d c a.
Proof. intros W A L P. destruct (expand_total n d names height W A L P) as (l & E). exists l. split; [exact E|]. now apply (expand_ok n). Qed.
(** No category is left over. *)
Theorem C59_no_category n d names l a : well_formed d -> expand n d names = Ret l -> In a l -> ~ category d (lower a).
Proof. intros W E H. apply (expand_ok n d names l W E) in H. destruct H as (c & _ & S). induction S; assumption. Qed.
Theorem C59_names_in_cat d c l : well_formed d -> names_in_cat d c = Ret l ->
  forall a, In a l <-> child d a c /\ exists t, In (a, t) d /\ (tget a_scope t = None \/ tget a_scope t = Some (VStr (u "Item"))).
Proof. apply names_in_cat_ok. Qed.
(** With names_only the subcategories are not left out. *)
Theorem C59_names_only_refuted : exists d c, well_formed d /\ names_in_cat d c = Ret [] /\ exists v, object_names_in_cat d c = Ret [v].
Proof.
  exists [(u "b", (u "_name.object_id", text "b") :: cat_def "a" "Set")], (u "a"). split; [|split; [vm_compute; reflexivity|eexists; vm_compute; reflexivity]]. constructor.
  - apply has_dup_spec. vm_compute. reflexivity.
  - intros k t [H|[]]. injection H as <- _. reflexivity.
  - intros k t v [H|[]]. injection H as _ <-. cbn. intros E. injection E as <-. eexists. reflexivity.
Qed.
Example C59_example : expand 6 dict0 [u "Atom"; u "_zz.q"] = Ret [u "_atom.x"; u "_aniso.u"; u "_zz.q"] /\ names_in_cat dict0 (u "ATOM") = Ret [u "_atom.x"].
Proof. split; vm_compute; reflexivity. Qed.
Example C59_meets : exists l, expand 6 dict0 [u "Atom"] = Ret l /\ forall a, In a l <-> exists c, In c [u "Atom"] /\ stands_for dict0 c a.
Proof. apply (C59_expand 6 dict0 _ height0 dict0_wf dict0_acyclic); [|lia]. intros c [<-|[]] _. vm_compute. lia. Qed.

Definition tree_theorems := (C48_all_children, C48_all_children_once, C48_all_children_total, C48_semantic_child, C48_danglers, C48_connected, C48_no_head, C48_head, C48_cycle_refuted, C48_semantic_child_case_refuted, C57_definitions, C57_duplicates, C57_case_duplicates_refuted, C57_added_refuted, C57_added, C58_parent_lookup, C58_parent_lookup_total, C58_top, C58_own_parent_refuted, C59_expand, C59_no_category, C59_names_in_cat, C59_names_only_refuted).
Print Assumptions tree_theorems.
