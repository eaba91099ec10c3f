(** C49, C60: imports in DDLm dictionaries. *)
From Coq Require Import String Ascii List Arith NArith Bool Lia.
From Verif Require Import PyBase PyFacts StarBlockModel ValidateModel TreeModel TreeSpec TreeProofs TreeProofs2 ImportModel ImportSpec ImportProofs ImportProofs2 PropertiesTree.
Import ListNotations.
Open Scope string_scope.
Open Scope list_scope.
Open Scope nat_scope.

(** ** C49 *)
(** An own attribute wins, if everything imported resolves. *)
Theorem C49_own n b name v : ready n b -> own b name = Some v -> dic_getitem n b name = Ret v.
Proof. apply get_own. Qed.
(** In any case a value returned for an own attribute is the own value. *)
Theorem C49_own_wins n b name v w : own b name = Some v -> dic_getitem n b name = Ret w -> w = v.
Proof. apply get_own_wins. Qed.
(** Otherwise the last import that has the attribute wins; without any, KeyError. *)
Theorem C49_last_wins n b refs name v : ready n b -> b_imports b = Some refs -> b_cache b <> [] -> own b name = None -> last_gives (b_cache b) refs name v -> dic_getitem n b name = Ret v.
Proof. intros R E N O. now apply (get_imported n b refs name R E N O). Qed.
Theorem C49_absent n b refs name : ready n b -> b_imports b = Some refs -> b_cache b <> [] -> own b name = None -> (forall r v, In r refs -> ~ gives (b_cache b) r name v) -> dic_getitem n b name = Raise KeyErr.
Proof. intros R E N O. now apply (get_imported n b refs name R E N O). Qed.
(** One of these cases always applies, so reading is total. *)
Theorem C49_total n b name : ready n b -> (exists v, dic_getitem n b name = Ret v) \/ dic_getitem n b name = Raise KeyErr.
Proof.
  intros R. destruct n as [|n]; [destruct R|]. destruct (own b name) as [v|] eqn:O; [left; exists v; now apply get_own|]. destruct (b_imports b) as [refs|] eqn:E; [|right; rewrite (get_plain n b name (or_introl E)); now rewrite O].
  destruct (b_cache b) as [|c cs] eqn:Ec; [right; rewrite (get_plain n b name (or_intror Ec)); now rewrite O|]. assert (b_cache b <> []) as Nc by (rewrite Ec; discriminate). destruct (get_imported (S n) b refs name R E Nc O) as [H1 H2]. destruct (last_dec (b_cache b) refs name) as [(v & L)|L]; [left; exists v; now apply H1|right; now apply H2].
Qed.
(** Without imports, or before anything is cached, a definition is its own
    attributes. *)
Theorem C49_plain n b name : (b_imports b = None \/ b_cache b = []) -> dic_getitem (S n) b name = match own b name with Some v => Ret v | None => Raise KeyErr end.
Proof. apply get_plain. Qed.
Theorem C49_has_key n b name : ready n b -> dic_has_key n b name = Ret true /\ (exists v, dic_getitem n b name = Ret v) \/ dic_has_key n b name = Ret false /\ dic_getitem n b name = Raise KeyErr.
Proof. intros R. unfold dic_has_key. destruct (C49_total n b name R) as [(v & ->)| ->]; [left|right]; split; eauto. Qed.
(** Only a missing attribute counts as not being there; any other error is passed on. *)
Theorem C49_has_key_error n b name e : e <> KeyErr -> (dic_has_key n b name = Raise e <-> dic_getitem n b name = Raise e).
Proof. intros H. unfold dic_has_key. destruct (dic_getitem n b name) as [v|x]; [split; discriminate|]. destruct x; split; congruence. Qed.

Definition entry (f k mode : string) : iref := mkIref (Some (u f)) (Some (u k)) (u "Exit") (u mode).
Definition leaf (attr val : string) : dicblock := DicBlock [(u attr, text val)] None [].
Definition templ : list (str * dicblock) := [(u "one", leaf "_type.purpose" "A"); (u "two", DicBlock [(u "_type.purpose", text "B"); (u "_units.code", text "m")] None [])].
Definition importing : dicblock := DicBlock [(u "_definition.id", text "_x.y"); (u "_units.code", text "km")] (Some [entry "f" "One" "Contents"; entry "f" "two" "contents"]) [(u "f", templ)].
Example C49_example : dic_getitem 3 importing (u "_type.Purpose") = Ret (text "B") /\ dic_getitem 3 importing (u "_units.code") = Ret (text "km") /\ dic_getitem 3 importing (u "_type.contents") = Raise KeyErr.
Proof. repeat split; vm_compute; reflexivity. Qed.
Lemma importing_ready : ready 2 importing.
Proof.
  intros refs E _ r Hr. injection E as <-. destruct Hr as [<-|[<-|[]]].
  - split; [exists (u "f"), templ, (u "One"); repeat split; intros K; vm_compute in K; discriminate|]. intros t (f & dic & k & H1 & H2 & H3 & H4). injection H1 as <-. injection H2 as <-. injection H3 as <-. injection H4 as <-. intros refs' E'. discriminate.
  - split; [exists (u "f"), templ, (u "two"); repeat split; intros K; vm_compute in K; discriminate|]. intros t (f & dic & k & H1 & H2 & H3 & H4). injection H1 as <-. injection H2 as <-. injection H3 as <-. injection H4 as <-. intros refs' E'. discriminate.
Qed.
Example C49_meets : ready 2 importing /\ own importing (u "_type.purpose") = None /\ last_gives (b_cache importing) [entry "f" "One" "Contents"; entry "f" "two" "contents"] (u "_type.purpose") (text "B").
Proof.
  split; [exact importing_ready|]. split; [reflexivity|]. exists [entry "f" "One" "Contents"], (entry "f" "two" "contents"), []. split; [reflexivity|]. split; [|intros r' v' []]. eexists. split; [exists (u "f"), templ, (u "two"); repeat split|]. split; reflexivity.
Qed.
Example C49_has_key_error_meets : dic_has_key 3 (DicBlock [] (Some [entry "f" "three" "contents"]) [(u "f", templ)]) (u "_units.code") = Raise CifErr /\
  dic_has_key 3 importing (u "_units.code") = Ret true /\ dic_has_key 3 importing (u "_type.contents") = Ret false.
Proof. split; [vm_compute; reflexivity|]. split; vm_compute; reflexivity. Qed.
(** An own attribute cannot be read if an imported file or frame is missing. *)
Theorem C49_missing_refuted : exists b name v, own b name = Some v /\ dic_getitem 5 b name = Raise ValueErr /\ exists b', own b' name = Some v /\ dic_getitem 5 b' name = Raise CifErr.
Proof.
  exists (DicBlock [(u "_units.code", text "km")] (Some [entry "g" "one" "contents"]) [(u "f", templ)]), (u "_units.code"), (text "km"). split; [reflexivity|]. split; [vm_compute; reflexivity|].
  exists (DicBlock [(u "_units.code", text "km")] (Some [entry "f" "three" "contents"]) [(u "f", templ)]). split; [reflexivity|vm_compute; reflexivity].
Qed.
(** A definition that imports one file in mode contents and another in mode full:
    after the light import of both nothing can be read from it. *)
Theorem C49_mixed_modes_refuted : exists attrs refs dics name v, dget str_eqb (lower name) attrs = Some v /\ (forall r, In r refs -> resolves dics r)
  /\ dic_getitem 5 (DicBlock attrs (Some refs) (light_cache dics refs)) name = Raise ValueErr.
Proof.
  exists [(u "_units.code", text "km")], [entry "f" "one" "Contents"; entry "g" "one" "Full"], [(u "f", templ); (u "g", templ)], (u "_units.code"), (text "km"). split; [reflexivity|]. split; [|vm_compute; reflexivity].
  intros r [<-|[<-|[]]]; [exists (u "f"), templ, (u "one")|exists (u "g"), templ, (u "one")]; repeat split; intros K; vm_compute in K; discriminate.
Qed.
(** get and `in' do not see imported attributes. *)
Theorem C49_get_refuted : exists b name v, ready 2 b /\ dic_getitem 2 b name = Ret v /\ dic_get_default 2 b name None = Ret None.
Proof. exists importing, (u "_type.purpose"), (text "B"). split; [exact importing_ready|]. split; vm_compute; reflexivity. Qed.
(** Attributes that an imported definition itself imports are not found. *)
Theorem C49_transitive_refuted : exists b t name v, target_of (b_cache b) (entry "h" "mid" "contents") t /\ b_imports b = Some [entry "h" "mid" "contents"] /\ ready 3 b /\ dic_getitem 2 t name = Ret v /\ dic_getitem 3 b name = Raise KeyErr.
Proof.
  exists (DicBlock [] (Some [entry "h" "mid" "contents"]) [(u "h", [(u "mid", importing)])]), importing, (u "_type.purpose"), (text "B"). split; [exists (u "h"), [(u "mid", importing)], (u "mid"); repeat split|]. split; [reflexivity|]. split; [|split; vm_compute; reflexivity].
  intros refs E _ r Hr. injection E as <-. destruct Hr as [<-|[]]. split; [exists (u "h"), [(u "mid", importing)], (u "mid"); repeat split; intros K; vm_compute in K; discriminate|].
  intros t (f & dic & k & H1 & H2 & H3 & H4). injection H1 as <-. injection H2 as <-. injection H3 as <-. vm_compute in H4. injection H4 as <-. exact importing_ready.
Qed.

(** ** C60 *)
(** Importing a head into a head: the result holds the own definitions and those
    below the imported head that are not defined already; what named the imported
    head as its category names the importing category, nothing else changes, and the
    imported head is gone. *)
Theorem C60_full_import n d from parent target head m height : well_formed d -> well_formed from -> acyclic from height -> ids_are_keys from ->
  lower head = lower target -> category from (lower head) -> height (lower head) < n -> head <> [] ->
  has d (lower parent) a_class (u "Head") -> has d (lower parent) a_object m -> has from (lower head) a_class (u "Head") -> has from (lower head) a_object head -> ~ In (lower head) (map fst d) ->
  exists d2, full_import n d parent from target = Ret d2 /\ NoDup (map fst d2)
    /\ (forall a t', In (a, t') d2 -> a <> lower head /\ exists t, source d from head a t /\ moved head m (lower parent) a t t')
    /\ (forall a t, a <> lower head -> source d from head a t -> exists t', In (a, t') d2 /\ moved head m (lower parent) a t t').
Proof. apply full_import_ok. Qed.
(** Everything below the imported head is below the importing category afterwards. *)
Theorem C60_tree n d from parent target head m height d2 : well_formed d -> well_formed from -> acyclic from height -> ids_are_keys from ->
  lower head = lower target -> category from (lower head) -> height (lower head) < n -> head <> [] ->
  has d (lower parent) a_class (u "Head") -> has d (lower parent) a_object m -> has from (lower head) a_class (u "Head") -> has from (lower head) a_object head ->
  (forall a, In a (map fst from) -> ~ In a (map fst d)) -> full_import n d parent from target = Ret d2 ->
  forall a, under from head a -> a <> head -> under d2 m a.
Proof.
  intros Wd Wf Af If Lh Ch Ht Nh H1 H2 H3 H4 Dj E. destruct (full_import_ok n d from parent target head m height Wd Wf Af If Lh Ch Ht Nh H1 H2 H3 H4) as (d2' & E' & _ & _ & S); [apply Dj; now apply cat_in|]. rewrite E in E'. injection E' as <-.
  now apply (full_import_tree d from d2 (lower parent) head m height).
Qed.
(** Any category that is not a head: the import fails with IndexError. *)
Theorem C60_category_fails n d from parent target head m height : well_formed d -> well_formed from -> acyclic from height -> ids_are_keys from -> ids_are_keys d ->
  lower head = lower target -> category from (lower head) -> height (lower head) < n -> head <> [] ->
  has d (lower parent) a_object m -> has from (lower head) a_object head -> ~ has from (lower head) a_class (u "Head") -> ~ In (lower head) (map fst d) ->
  full_import n d parent from target = Raise IndexErr.
Proof. apply category_import_fails. Qed.
Definition full_cat (id obj parent class : string) : table := (u "_definition.id", text id) :: (u "_name.object_id", text obj) :: cat_def parent class.
Definition full_item (id obj parent : string) : table := [(u "_definition.id", text id); (u "_name.object_id", text obj); (u "_name.category_id", text parent)].
Definition my_dic : defs := [(u "mine", (u "_import.get", text "..") :: full_cat "MINE" "MINE" "MY_DIC" "Head"); (u "_a.y", full_item "_a.y" "y" "A")].
Definition core_dic : defs := [(u "core", full_cat "CORE" "CORE" "CORE_DIC" "Head"); (u "a", full_cat "A" "A" "core" "Loop"); (u "_a.x", full_item "_A.x" "x" "A")].
Definition height1 (a : str) : nat := if str_eqb a (u "core_dic") then 3 else if str_eqb a (u "core") then 2 else if str_eqb a (u "a") then 1 else 0.
Example C60_example : exists d2, full_import 5 my_dic (u "MINE") core_dic (u "Core") = Ret d2 /\ map fst d2 = [u "mine"; u "_a.y"; u "_a.x"; u "a"] /\ all_children 5 d2 (u "MINE") = Ret [u "_a.y"; u "_a.x"; u "a"; u "MINE"] /\ danglers 5 my_dic = Ret [u "_a.y"] /\ danglers 5 d2 = Ret [].
Proof. eexists. split; [vm_compute; reflexivity|]. repeat split; vm_compute; reflexivity. Qed.
Lemma wf_check d : has_dup (map fst d) = false -> forallb (fun kt => str_eqb (lower (fst kt)) (fst kt) && match tget a_category (snd kt) with None | Some (VStr _) => true | _ => false end) d = true -> well_formed d.
Proof.
  intros N F. rewrite forallb_forall in F. constructor.
  - now apply has_dup_spec.
  - intros k t H. specialize (F (k, t) H). cbn [fst snd] in F. apply andb_prop in F. destruct F as [F _]. now destruct (str_eqb_spec (lower k) k).
  - intros k t v H E. specialize (F (k, t) H). cbn [fst snd] in F. apply andb_prop in F. destruct F as [_ F]. change (tget a_category t = Some v) in E. rewrite E in F. destruct v; try discriminate. now eexists.
Qed.
Lemma ids_check d : forallb (fun kt => match tget a_defid (snd kt) with Some (VStr i) => str_eqb (lower i) (fst kt) | _ => false end) d = true -> ids_are_keys d.
Proof.
  intros F. rewrite forallb_forall in F. intros k t H. specialize (F (k, t) H). cbn [fst snd] in F. change (u "_definition.id") with a_defid. destruct (tget a_defid t) as [[i| | | | |]|]; try discriminate. exists i. split; [reflexivity|]. now destruct (str_eqb_spec (lower i) k).
Qed.
Lemma acyclic_check d h : forallb (fun kt => negb (is_category (snd kt)) || match tget a_category (snd kt) with Some (VStr s) => Nat.ltb (h (fst kt)) (h (lower s)) | None => Nat.ltb (h (fst kt)) (h []) | _ => true end) d = true -> NoDup (map fst d) -> acyclic d h.
Proof.
  intros F N a c (t & H & K) (t' & H' & S). assert (t' = t) as -> by (apply (defs_dget _ _ _ N) in H, H'; rewrite H in H'; now injection H'). rewrite forallb_forall in F. specialize (F (a, t) H). cbn [fst snd] in F. assert (is_category t = true) as E by now apply veq_text_spec. rewrite E in F. cbn [negb orb] in F.
  destruct K as [(s & Es & <-)|[Es ->]]; [change (tget a_category t = Some (VStr s)) in Es|change (tget a_category t = None) in Es]; rewrite Es in F; now apply Nat.ltb_lt.
Qed.
Example C60_meets : well_formed my_dic /\ well_formed core_dic /\ acyclic core_dic height1 /\ ids_are_keys core_dic /\ ids_are_keys my_dic /\ category core_dic (lower (u "CORE")) /\ height1 (lower (u "CORE")) < 5
  /\ has my_dic (lower (u "MINE")) a_class (u "Head") /\ has my_dic (lower (u "MINE")) a_object (u "MINE") /\ has core_dic (lower (u "CORE")) a_class (u "Head") /\ has core_dic (lower (u "CORE")) a_object (u "CORE") /\ (forall a, In a (map fst core_dic) -> ~ In a (map fst my_dic)).
Proof.
  split; [apply wf_check; vm_compute; reflexivity|]. split; [apply wf_check; vm_compute; reflexivity|]. split; [apply acyclic_check; [vm_compute; reflexivity|apply has_dup_spec; vm_compute; reflexivity]|]. split; [apply ids_check; vm_compute; reflexivity|]. split; [apply ids_check; vm_compute; reflexivity|].
  split; [eexists; split; [now left|reflexivity]|]. split; [vm_compute; lia|]. split; [eexists; split; [now left|reflexivity]|]. split; [eexists; split; [now left|reflexivity]|]. split; [eexists; split; [now left|reflexivity]|]. split; [eexists; split; [now left|reflexivity]|].
  intros a H K. repeat (destruct H as [<-|H]; [repeat (destruct K as [K|K]; [vm_compute in K; discriminate|]); exact K|]). exact H.
Qed.
(** Importing category A of the core dictionary. *)
Theorem C60_category_refuted : exists n d from parent target, well_formed d /\ well_formed from /\ category from target /\ ~ In target (map fst d) /\ has from target a_class (u "Loop") /\ full_import n d parent from target = Raise IndexErr.
Proof.
  exists 5, my_dic, core_dic, (u "mine"), (u "a"). split; [apply C60_meets|]. split; [apply C60_meets|]. split; [eexists; split; [right; left; reflexivity|reflexivity]|]. split; [intros [K|[K|[]]]; vm_compute in K; discriminate|]. split; [eexists; split; [right; left; reflexivity|reflexivity]|vm_compute; reflexivity].
Qed.
(** Two heads of the same name: the importing dictionary's own head is deleted and
    the import ends in KeyError. *)
Theorem C60_same_head_refuted : exists n d from parent target, well_formed d /\ well_formed from /\ has d parent a_class (u "Head") /\ has from target a_class (u "Head") /\ full_import n d parent from target = Raise KeyErr.
Proof.
  exists 5, [(u "core", full_cat "Core" "CORE" "MY_DIC" "Head")], core_dic, (u "core"), (u "core"). split; [apply wf_check; vm_compute; reflexivity|]. split; [apply C60_meets|]. split; [eexists; split; [now left|reflexivity]|]. split; [eexists; split; [now left|reflexivity]|vm_compute; reflexivity].
Qed.

Definition import_theorems := (C49_own, C49_own_wins, C49_last_wins, C49_absent, C49_total, C49_plain, C49_has_key, C49_has_key_error, C49_missing_refuted, C49_mixed_modes_refuted, C49_get_refuted, C49_transitive_refuted, C60_full_import, C60_tree, C60_category_fails, C60_category_refuted, C60_same_head_refuted).
Print Assumptions import_theorems.
