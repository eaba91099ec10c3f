(** C62-C64: loop references, mandatory categories, mandatory and prohibited attributes. *)
From Coq Require Import String Ascii List NArith Bool.
From Verif Require Import PyBase PyFacts StarBlockModel ValidateModel ValidateSpec BlockCheckModel BlockCheckSpec BlockCheckProofs.
Import ListNotations.
Open Scope string_scope.
Open Scope list_scope.
Open Scope nat_scope.

(** A DDL1 dictionary (src/CifFile_module.nw 600-620). *)
Definition ddl1 (defs : list (str * table)) : cifdic :=
  mkDic defs [] (u "_type") (u "_type") (u "_type_conditions") (u "_enumeration") (u "_list")
    (u "_list_link_parent") (u "_list_link_child") (u "_category") (u "_list_mandatory")
    (u "xxx") (u "_related_function") (u "_related_item") (u "_list_mandatory") (u "_list_reference") [].
Definition X (s : string) : value := VStr (u s).

(** ** C62: loop references *)
(** A loop passes exactly if every name that the definitions of its names refer to is in
    it, or one of the alternates of that name; names that stand for a group are not looked at.
    What is reported is missing. *)
Theorem C62_references_decided d names : references_ok d names -> (forall r, requires d names r -> exists x, get_alternates d r false = Ret x) ->
  exists res, validate_loop_references d names = Ret res
  /\ (res = RTrue <-> forall r, requires d names r -> ~ group r -> supplied d names r)
  /\ (res = RTrue \/ exists bad, res = RFalse [] bad /\ bad <> [] /\ forall b, In b bad -> requires d names b /\ ~ group b /\ ~ supplied d names b).
Proof. exact (references_exact d names). Qed.
Definition ref_dic : cifdic := ddl1
  [(u "_site_x", [(u "_list_reference", X "_Site_label")]);
   (u "_site_label", [(u "_related_item", X "_site_tag"); (u "_related_function", X "alternate")]);
   (u "_site_tag", []);
   (u "_geom_d", [(u "_list_reference", VList [X "_geom_1"; X "_geom_2"])]);
   (u "_geom_1", []); (u "_geom_2", []);
   (u "_geom_s", [(u "_list_reference", X "_geom_label_")])].
Example C62_example :
  validate_loop_references ref_dic [u "_site_x"; u "_site_label"] = Ret RTrue
  /\ validate_loop_references ref_dic [u "_site_x"; u "_site_tag"] = Ret RTrue
  /\ validate_loop_references ref_dic [u "_geom_d"; u "_geom_1"] = Ret (RFalse [] [u "_geom_2"])
  /\ validate_loop_references ref_dic [u "_site_x"] = Ret (RFalse [] [u "_site_label"]).
Proof. repeat split; vm_compute; reflexivity. Qed.
Example C62_meets : exists d names r, references_ok d names /\ (forall r, requires d names r -> exists x, get_alternates d r false = Ret x)
  /\ requires d names r /\ ~ group r /\ ~ In r names /\ supplied d names r.
Proof.
  exists ref_dic, [u "_site_x"; u "_site_tag"], (u "_site_label").
  assert (forall r, requires ref_dic [u "_site_x"; u "_site_tag"] r -> r = u "_site_label") as R.
  { intros r (a & def & v & l & s & [<-|[<-|[]]] & D & T & S & I & ->); vm_compute in D; injection D as <-; vm_compute in T; try discriminate T.
    injection T as <-. inversion S; subst. destruct I as [<-|[]]. vm_compute. reflexivity. }
  split; [|split; [|split; [|split; [|split]]]].
  - intros a [<-|[<-|[]]]; eexists; (split; [vm_compute; reflexivity|]); [right|left; vm_compute; reflexivity].
    eexists _, _. split; [vm_compute; reflexivity|]. split; [constructor|]. intros [K|[]]. discriminate K.
  - intros r K. rewrite (R _ K). eexists. vm_compute. reflexivity.
  - exists (u "_site_x"). eexists _, _, _, _. split; [now left|]. split; [vm_compute; reflexivity|]. split; [vm_compute; reflexivity|]. split; [constructor|]. split; [now left|]. vm_compute. reflexivity.
  - intros (p & K). apply (f_equal (@rev N)) in K. rewrite rev_app_distr in K. vm_compute in K. discriminate K.
  - intros [K|[K|[]]]; discriminate K.
  - right. exists [u "_site_tag"], (u "_site_tag"). split; [vm_compute; reflexivity|]. split; [now left|right; now left].
Qed.
(** A group of which no name is in the loop is not reported. *)
Theorem C62_group_refuted : exists d names g, references_ok d names /\ requires d names g /\ group g /\ (forall n, In n names -> ~ begins g n) /\ validate_loop_references d names = Ret RTrue.
Proof.
  exists ref_dic, [u "_geom_s"], (u "_geom_label_"). split; [|split; [|split; [|split]]].
  - intros a [<-|[]]. eexists. split; [vm_compute; reflexivity|]. right. eexists _, _. split; [vm_compute; reflexivity|]. split; [constructor|]. intros [K|[]]. discriminate K.
  - exists (u "_geom_s"). eexists _, _, _, _. split; [now left|]. split; [vm_compute; reflexivity|]. split; [vm_compute; reflexivity|]. split; [constructor|]. split; [now left|]. vm_compute. reflexivity.
  - exists (u "_geom_label"). vm_compute. reflexivity.
  - intros n [<-|[]] (t & K). vm_compute in K. discriminate K.
  - vm_compute. reflexivity.
Qed.
(** If the name referred to is neither in the loop nor in the dictionary, the check ends with
    an error, not with a verdict. *)
Theorem C62_undefined_refuted : exists d names r, references_ok d names /\ requires d names r /\ ~ supplied d names r /\ validate_loop_references d names = Raise KeyErr.
Proof.
  exists (ddl1 [(u "_a", [(u "_list_reference", X "_b")])]), [u "_a"], (u "_b"). split; [|split; [|split]].
  - intros a [<-|[]]. eexists. split; [vm_compute; reflexivity|]. right. eexists _, _. split; [vm_compute; reflexivity|]. split; [constructor|]. intros [K|[]]. discriminate K.
  - exists (u "_a"). eexists _, _, _, _. split; [now left|]. split; [vm_compute; reflexivity|]. split; [vm_compute; reflexivity|]. split; [constructor|]. split; [now left|]. vm_compute. reflexivity.
  - intros [[K|[]]|(x & y & K & _)]; [discriminate K|vm_compute in K; discriminate K].
  - vm_compute. reflexivity.
Qed.

(** ** C63: mandatory categories *)
Theorem C63_mandatory_decided d t : (forall k x, In (k, x) (d_defs d) -> tget (u "_category.mandatory_code") x = Some (VStr (u "yes")) -> exists c, tget (u "_category.id") x = Some (VStr c)) ->
  (forall k v, In (k, v) t -> exists def, dic_get d k = Ret def /\ (tget (d_cat_spec d) def = None \/ exists c, tget (d_cat_spec d) def = Some (VStr c))) ->
  exists res, validate_mandatory_category d t = Ret res /\ (res = RTrue <-> forall c, wanted d c -> has_category d t c)
  /\ (res = RTrue \/ exists bad, res = RFalse [] bad /\ forall c, In c bad <-> wanted d c /\ ~ has_category d t c).
Proof. exact (mandatory_exact d t). Qed.
Definition cat_dic (id : string) : cifdic :=
  mkDic [(u "cell", [(u "_category.id", X id); (u "_category.mandatory_code", X "yes")]); (u "atom", [(u "_category.id", X "atom"); (u "_category.mandatory_code", X "no")]);
         (u "_cell.a", [(u "_item.category_id", X "cell")]); (u "_atom.x", [(u "_item.category_id", X "atom")])]
    [] (u "_item_type.code") (u "_type") (u "_item_type_conditions.code") (u "_item_enumeration.value") (u "xxx")
    (u "_item_linked.parent_name") (u "_item_linked.child_name") (u "_item.category_id") (u "_item.mandatory_code")
    (u "_item_dependent.dependent_name") (u "_item_related.function_code") (u "_item_related.related_name") (u "_category_mandatory.name") (u "xxx") [].
Example C63_example : validate_mandatory_category (cat_dic "cell") [(u "_cell.a", X "1")] = Ret RTrue
  /\ validate_mandatory_category (cat_dic "cell") [(u "_atom.x", X "1")] = Ret (RFalse [] [u "cell"]).
Proof. split; vm_compute; reflexivity. Qed.
Example C63_meets : exists d t c, (forall k x, In (k, x) (d_defs d) -> tget (u "_category.mandatory_code") x = Some (VStr (u "yes")) -> exists c, tget (u "_category.id") x = Some (VStr c))
  /\ (forall k v, In (k, v) t -> exists def, dic_get d k = Ret def /\ (tget (d_cat_spec d) def = None \/ exists c, tget (d_cat_spec d) def = Some (VStr c)))
  /\ wanted d c /\ ~ has_category d t c /\ t <> [].
Proof.
  exists (cat_dic "cell"), [(u "_atom.x", X "1")], (u "cell"). split; [|split; [|split; [|split]]].
  - intros k x K. cbn [cat_dic d_defs In] in K. destruct K as [K|[K|[K|[K|[]]]]]; injection K as <- <-; intros E; try (vm_compute in E; discriminate E). eexists. vm_compute. reflexivity.
  - intros k v [K|[]]. injection K as <- <-. eexists. split; [vm_compute; reflexivity|]. right. eexists. vm_compute. reflexivity.
  - exists (u "cell"). eexists. split; [now left|]. split; vm_compute; reflexivity.
  - intros (k & v & def & [K|[]] & D & C). injection K as <- <-. vm_compute in D. injection D as <-. vm_compute in C. discriminate C.
  - discriminate.
Qed.
(** Category names are case-insensitive everywhere else. *)
Theorem C63_case_refuted : exists d t c c', wanted d c /\ has_category d t c' /\ lower c = lower c' /\ validate_mandatory_category d t = Ret (RFalse [] [c]).
Proof.
  exists (cat_dic "Cell"), [(u "_cell.a", X "1")], (u "Cell"), (u "cell"). split; [|split; [|split]].
  - exists (u "cell"). eexists. split; [now left|]. split; vm_compute; reflexivity.
  - exists (u "_cell.a"), (X "1"). eexists. split; [now left|]. split; vm_compute; reflexivity.
  - vm_compute. reflexivity.
  - vm_compute. reflexivity.
Qed.
(** An item that is not in the dictionary makes the check fail with an error. *)
Theorem C63_unknown_item_refuted : exists d t, (forall c, wanted d c -> has_category d t c) /\ validate_mandatory_category d t = Raise KeyErr.
Proof.
  exists (cat_dic "cell"), [(u "_cell.a", X "1"); (u "_local", X "1")]. split; [|vm_compute; reflexivity].
  intros c (k & x & K & M & C). assert (c = u "cell") as ->.
  { cbn [cat_dic d_defs In] in K. destruct K as [K|[K|[K|[K|[]]]]]; injection K as <- <-; try (vm_compute in M; discriminate M). vm_compute in C. injection C as <-. reflexivity. }
  exists (u "_cell.a"), (X "1"). eexists. split; [now left|]. split; vm_compute; reflexivity.
Qed.

(** ** C64: mandatory and prohibited attributes of definitions *)
Theorem C64_mandatory_attributes sc t default s names : in_scope t default s -> default <> u "Datablock" -> dget str_eqb s sc = Some names ->
  exists res, check_mandatory_items sc t default = Ret res /\ (res = RTrue <-> forall a, In a names -> tget a t <> None)
  /\ (res = RTrue \/ exists bad, res = RFalse [] bad /\ bad <> [] /\ forall a, In a bad <-> In a names /\ tget a t = None).
Proof.
  intros I N G. destruct (check_scope_ok (fun a => negb (tmem a t)) (fun a => tget a t = None) sc t default s names) as (res & E & A & B); auto.
  - intros a. unfold tmem. destruct (tget a t); split; intros; try discriminate; reflexivity.
  - now exists res.
Qed.
Theorem C64_prohibited_attributes sc t default s names : in_scope t default s -> default <> u "Datablock" -> dget str_eqb s sc = Some names ->
  exists res, check_prohibited_items sc t default = Ret res /\ (res = RTrue <-> forall a, In a names -> tget a t = None)
  /\ (res = RTrue \/ exists bad, res = RFalse [] bad /\ bad <> [] /\ forall a, In a bad <-> In a names /\ tget a t <> None).
Proof.
  intros I N G. destruct (check_scope_ok (fun a => tmem a t) (fun a => tget a t <> None) sc t default s names) as (res & E & A & B); auto.
  - intros a. unfold tmem. destruct (tget a t); split; intros; try discriminate; try reflexivity. now elim H.
  - exists res. split; [exact E|]. split; [|exact B]. rewrite A. split; intros H a Ia; specialize (H a Ia); destruct (tget a t); try reflexivity; try discriminate; [elim H; discriminate|now intros K].
Qed.
(** Data files are left alone. *)
Theorem C64_data_files sc t : check_mandatory_items sc t (u "Datablock") = Ret RTrue /\ check_prohibited_items sc t (u "Datablock") = Ret RTrue.
Proof. unfold check_mandatory_items, check_prohibited_items, check_scope. destruct sc; now split. Qed.
Definition mand_table : scopes := [(u "Dictionary", [u "_dictionary.title"; u "_dictionary.version"]); (u "Item", [u "_definition.id"; u "_type.contents"])].
Example C64_meets : exists sc t s names, in_scope t (u "Item") s /\ u "Item" <> u "Datablock" /\ dget str_eqb s sc = Some names
  /\ check_mandatory_items sc t (u "Item") = Ret (RFalse [] [u "_type.contents"]) /\ check_prohibited_items sc t (u "Item") = Ret (RFalse [] [u "_definition.id"]).
Proof.
  exists mand_table, [(u "_definition.id", X "_a.b")], (u "Item"), [u "_definition.id"; u "_type.contents"].
  split; [|split; [discriminate|]]; [|repeat split; vm_compute; reflexivity]. apply is_default; vm_compute; reflexivity.
Qed.
(** The scope given to run_block_validation is dropped: a data file is checked like the
    definition of an item, and reported. *)
Theorem C64_scope_refuted : exists mand t bad, check_mandatory_items mand t (u "Datablock") = Ret RTrue
  /\ block_checks_ddlm mand [] (u "Datablock") t = Ret [(u "check_mandatory_items", RFalse [] bad); (u "check_prohibited_items", RTrue)].
Proof. exists mand_table, [(u "_cell.a", X "1")], [u "_definition.id"; u "_type.contents"]. split; vm_compute; reflexivity. Qed.
(** A scope that is not in the table gives an error. *)
Theorem C64_missing_scope_refuted : exists mand t s, in_scope t (u "Item") s /\ dget str_eqb s mand = None /\ mand <> [] /\ check_mandatory_items mand t (u "Item") = Raise KeyErr.
Proof.
  exists mand_table, [(u "_definition.scope", X "Category")], (u "Category"). split; [apply is_given; vm_compute; reflexivity|].
  split; [vm_compute; reflexivity|]. split; [discriminate|]. vm_compute. reflexivity.
Qed.

Definition blockcheck_theorems := (C62_references_decided, C62_group_refuted, C62_undefined_refuted, C63_mandatory_decided, C63_case_refuted, C63_unknown_item_refuted,
  C64_mandatory_attributes, C64_prohibited_attributes, C64_data_files, C64_scope_refuted, C64_missing_scope_refuted).
Print Assumptions blockcheck_theorems.
