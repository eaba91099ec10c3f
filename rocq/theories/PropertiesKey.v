(** C65-C67: keys of loop categories, names from category and object, the key hierarchy. *)
From Coq Require Import String Ascii List Arith NArith Bool Lia.
From Verif Require Import PyBase PyFacts StarBlockModel ValidateModel ValidateSpec ValidateProofs2 TreeModel TreeSpec TreeProofs TreeProofs2 KeyModel KeySpec KeyProofs KeyProofs2 KeyProofs3.
Import ListNotations.
Open Scope string_scope.
Open Scope list_scope.
Open Scope nat_scope.

Definition text (s : string) : value := VStr (u s).
Definition cat_with (name parent class : string) (key : value) : str * table :=
  (u name, [(u "_definition.scope", text "Category"); (u "_definition.class", text class); (u "_definition.id", text name); (u "_name.category_id", text parent); (u "_category_key.name", key)]).
Definition item (name cat obj : string) : str * table :=
  (u name, [(u "_definition.id", text name); (u "_name.category_id", text cat); (u "_name.object_id", text obj)]).
Definition key_item (name cat obj : string) : str * table :=
  (u name, [(u "_definition.id", text name); (u "_name.category_id", text cat); (u "_name.object_id", text obj); (u "_type.purpose", text "Key")]).
Definition link_item (name cat obj link : string) : str * table :=
  (u name, [(u "_definition.id", text name); (u "_name.category_id", text cat); (u "_name.object_id", text obj); (u "_type.purpose", text "Key"); (u "_name.linked_item_id", text link)]).
Definition head : str * table := (u "core", [(u "_definition.scope", text "Category"); (u "_definition.class", text "Head"); (u "_definition.id", text "CORE"); (u "_name.category_id", text "CORE_DIC")]).
Definition dict1 : defs :=
  [head; cat_with "atom" "Core" "Loop" (text "_atom.id"); key_item "_atom.id" "atom" "id"; item "_atom.x" "ATOM" "X";
   cat_with "aniso" "atom" "Loop" (text "_aniso.id"); link_item "_aniso.id" "aniso" "id" "_atom.id"; item "_aniso.u" "aniso" "u"].
(** Checks of the hypotheses for given dictionaries. *)
Definition wf_b (d : defs) : bool :=
  negb (has_dup (map fst d)) && forallb (fun kt => str_eqb (lower (fst kt)) (fst kt) && match tget (u "_name.category_id") (snd kt) with None | Some (VStr _) => true | _ => false end) d.
Lemma wf_check d : wf_b d = true -> well_formed d.
Proof.
  unfold wf_b. rewrite andb_true_iff, negb_true_iff, forallb_forall. intros (N & F). constructor.
  - now apply has_dup_spec.
  - intros k t I. specialize (F _ I). cbn [fst snd] in F. apply andb_true_iff in F. destruct F as (F & _). now destruct (str_eqb_spec (lower k) k).
  - intros k t v I E. specialize (F _ I). cbn [fst snd] in F. apply andb_true_iff in F. destruct F as (_ & F). rewrite E in F. destruct v; try discriminate F. eexists. reflexivity.
Qed.
Lemma loop_of d c t : well_formed d -> In (c, t) d -> looped d c -> is_loop t = true.
Proof. intros W I (t' & I' & L). apply (defs_dget d _ _ (w_keys d W)) in I, I'. rewrite I in I'. injection I' as <-. now apply veq_text_spec. Qed.
Definition keyed_b (d : defs) : bool := forallb (fun kt => negb (is_loop (snd kt)) || match tget (u "_category_key.name") (snd kt) with Some (VStr _) => true | Some (VList l) => forallb (fun v => match v with VStr _ => true | _ => false end) l | _ => false end) d.
Lemma keyed_check d : well_formed d -> keyed_b d = true -> keyed d.
Proof.
  intros W F c t I L. unfold keyed_b in F. rewrite forallb_forall in F. specialize (F _ I). cbn [snd] in F. rewrite (loop_of d c t W I L) in F. cbn [negb orb] in F.
  destruct (tget (u "_category_key.name") t) as [[s| | |l| |]|] eqn:E; try discriminate F; [exists [s]; now apply ki_one|].
  assert (exists ks, l = map VStr ks) as (ks & ->); [|exists ks; now apply ki_list].
  clear E. induction l as [|v l IH]; [now exists []|]. cbn [forallb] in F. apply andb_true_iff in F. destruct F as (A & B). destruct (IH B) as (ks & ->). destruct v; try discriminate A. eexists (_ :: ks). reflexivity.
Qed.
Lemma loop_child_list d el : well_formed d -> expand_list d = Ret el -> forall a k, loop_child d a k <-> exists ks, In (a, ks) el /\ In k ks.
Proof.
  intros W E a k. destruct (expand_list_ok d W) as (el' & E' & _ & A & B). rewrite E in E'. injection E' as <-. split.
  - intros L. destruct (B a k L) as (ks & I). exists ks. split; [exact I|]. now apply (A a ks I).
  - intros (ks & I & K). now apply (A a ks I).
Qed.
Definition described_b (d : defs) : bool :=
  forallb (fun kt => negb (is_item (snd kt)) || match tget a_object (snd kt), tget a_def_id (snd kt) with Some (VStr (c :: _)), Some (VStr (c' :: _)) => negb (N.eqb (lower_char c) 95) && N.eqb c' 95 | _, _ => false end) d.
Lemma described_check d : described_b d = true -> described d /\ apart d.
Proof.
  intros F. unfold described_b in F. rewrite forallb_forall in F.
  assert (forall k t, In (k, t) d -> item_scope t -> exists c o c' i, tget a_object t = Some (VStr (c :: o)) /\ tget a_def_id t = Some (VStr (c' :: i)) /\ N.eqb (lower_char c) 95 = false /\ c' = 95%N) as H.
  { intros k t I S. specialize (F _ I). cbn [snd] in F. unfold is_item in F. rewrite (proj2 (item_bool t) S) in F. cbn [negb orb] in F.
    destruct (tget a_object t) as [[[|c o]| | | | |]|]; try discriminate F. destruct (tget a_def_id t) as [[[|c' i]| | | | |]|]; try discriminate F.
    apply andb_true_iff in F. destruct F as (F1 & F2). exists c, o, c', i. split; [reflexivity|]. split; [reflexivity|]. split; [now apply negb_true_iff|now apply N.eqb_eq]. }
  split.
  - intros k t I S. destruct (H k t I S) as (c & o & c' & i & -> & -> & _). eexists _, _. split; reflexivity.
  - intros c o nm c' o' (k & t & s & I & S & _ & _ & _ & E & _) (k' & t' & s' & I' & S' & _ & E' & L & _).
    destruct (H k t I S) as (x1 & x2 & x3 & x4 & _ & D1 & _ & ->). destruct (H k' t' I' S') as (y1 & y2 & y3 & y4 & D2 & _ & N & _).
    unfold a_def_id, a_object in *. rewrite E in D1. injection D1 as ->. rewrite E' in D2. injection D2 as ->. cbn [lower map] in L. injection L as L _. rewrite L in N. discriminate N.
Qed.

(** ** C65: the keys of loop categories *)
(** With at most two levels of loop categories, the table has exactly the loop categories,
    each with its own key and then those of the loop categories directly below. *)
Theorem C65_key_table d : well_formed d -> keyed d -> two_levels d ->
  exists tbl, cat_key_table d = Ret tbl /\ (forall c, (exists v, dget str_eqb c tbl = Some v) <-> looped d c) /\ forall c v, dget str_eqb c tbl = Some v -> key_entry d c v.
Proof. apply key_table_ok. Qed.
Lemma dict1_wf : well_formed dict1. Proof. apply wf_check. vm_compute. reflexivity. Qed.
Example C65_meets : well_formed dict1 /\ keyed dict1 /\ two_levels dict1 /\ loop_child dict1 (u "atom") (u "aniso")
  /\ cat_key_table dict1 = Ret [(u "atom", [[text "_atom.id"]; [text "_aniso.id"]]); (u "aniso", [[text "_aniso.id"]])].
Proof.
  split; [exact dict1_wf|]. split; [apply keyed_check; [exact dict1_wf|vm_compute; reflexivity]|].
  assert (forall a k, loop_child dict1 a k <-> exists ks, In (a, ks) [(u "atom", [u "aniso"])] /\ In k ks) as L by (apply loop_child_list; [exact dict1_wf|vm_compute; reflexivity]).
  split; [|split; [|vm_compute; reflexivity]].
  - intros p c g L1 L2. apply L in L1, L2. destruct L1 as (k1 & [K1|[]] & J1), L2 as (k2 & [K2|[]] & J2). injection K1 as <- <-. destruct J1 as [<-|[]]. vm_compute in K2. discriminate K2.
  - apply L. exists [u "aniso"]. split; left; reflexivity.
Qed.
(** Three nested loop categories: the table cannot be built, so the dictionary cannot be
    loaded. *)
Theorem C65_three_levels d p c g : well_formed d -> keyed d -> loop_child d p c -> loop_child d c g -> cat_key_table d = Raise TypeErr.
Proof. apply key_table_nested. Qed.
Definition dict3 : defs := dict1 ++ [cat_with "part" "aniso" "Loop" (text "_part.id"); link_item "_part.id" "part" "id" "_aniso.id"; item "_part.v" "part" "v"].
Lemma dict3_wf : well_formed dict3. Proof. apply wf_check. vm_compute. reflexivity. Qed.
Theorem C65_nested_refuted : exists d, well_formed d /\ keyed d /\ cat_key_table d = Raise TypeErr.
Proof. exists dict3. split; [exact dict3_wf|]. split; [apply keyed_check; [exact dict3_wf|vm_compute; reflexivity]|]. vm_compute. reflexivity. Qed.
(** The check of keys: a loop whose first name is of a loop category with uppermost
    category [c] passes exactly if one of the names in the key of [c] is in the loop. *)
Theorem C65_check d tbl a names x t c v rest : dget str_eqb (lower a) (d_defs d) = Some t -> tget (d_cat_spec d) t = Some (VStr x) -> dget str_eqb (lower x) (d_lookup d) = Some c ->
  (forall b, In b names -> exists t' y, dget str_eqb (lower b) (d_defs d) = Some t' /\ tget (d_cat_spec d) t' = Some (VStr y)) ->
  dget str_eqb c tbl = Some (map VStr v :: rest) ->
  exists res, validate_loop_key_ddlm d tbl (a :: names) = Ret res /\ (res = RTrue <-> exists k, In k v /\ In k (a :: names)) /\ (res = RTrue \/ res = RFalse [] v).
Proof.
  intros H1 H2 H3 H4 H5. rewrite (key_check d tbl a names x t c v rest H1 H2 H3 H4 H5). eexists. split; [reflexivity|]. destruct (existsb _ v) eqn:E.
  - split; [|now left]. split; [intros _|reflexivity]. apply existsb_exists in E. destruct E as (k & I & S). exists k. split; [exact I|now apply smem_spec].
  - split; [|now right]. split; [discriminate|]. intros (k & I & S). assert (existsb (fun k => smem k (a :: names)) v = true) by (apply existsb_exists; exists k; split; [exact I|now apply smem_spec]). congruence.
Qed.
Definition ddlm (defs : list (str * table)) (lookup : list (str * str)) : cifdic :=
  mkDic defs [] (u "xxx") (u "_type.contents") (u "xxx") (u "_enumeration_set.state") (u "xxx")
    (u "xxx") (u "xxx") (u "_name.category_id") (u "xxx") (u "xxx") (u "xxx") (u "xxx") (u "_category.key_id") (u "xxx") lookup.
Definition run_check (d : defs) (names : list string) : outcome result :=
  obind (parent_lookup 10 d) (fun l => obind (cat_key_table d) (fun tbl => validate_loop_key_ddlm (ddlm d l) tbl (map u names))).
Example C65_check_meets : run_check dict1 ["_atom.x"; "_atom.id"] = Ret RTrue /\ run_check dict1 ["_atom.x"] = Ret (RFalse [] [u "_atom.id"]).
Proof. split; vm_compute; reflexivity. Qed.
(** Of a key with two names one is enough. *)
Definition dict_compound : defs := [head; cat_with "refln" "core" "Loop" (VList [text "_refln.h"; text "_refln.k"]); key_item "_refln.h" "refln" "h"; key_item "_refln.k" "refln" "k"; item "_refln.f" "refln" "f"].
Theorem C65_compound_refuted : exists d c ks names, well_formed d /\ looped d c /\ has_key d c (map u ks) /\ ~ incl ks names /\ run_check d names = Ret RTrue.
Proof.
  exists dict_compound, (u "refln"), ["_refln.h"; "_refln.k"], ["_refln.f"; "_refln.h"]. split; [apply wf_check; vm_compute; reflexivity|].
  split; [eexists; split; [right; left; reflexivity|vm_compute; reflexivity]|]. split; [eexists; split; [right; left; reflexivity|apply ki_list; vm_compute; reflexivity]|].
  split; [|vm_compute; reflexivity]. intros I. destruct (I "_refln.k"); [right; now left|discriminate|]. destruct H as [H|[]]. discriminate H.
Qed.
(** A loop of the lower category with its own key is reported. *)
Theorem C65_child_refuted : exists d c ks names, well_formed d /\ looped d c /\ has_key d c (map u ks) /\ incl ks names /\ run_check d names = Ret (RFalse [] [u "_atom.id"]).
Proof.
  exists dict1, (u "aniso"), ["_aniso.id"], ["_aniso.u"; "_aniso.id"]. split; [exact dict1_wf|].
  split; [eexists; split; [do 4 right; left; reflexivity|vm_compute; reflexivity]|]. split; [eexists; split; [do 4 right; left; reflexivity|apply ki_one; vm_compute; reflexivity]|].
  split; [|vm_compute; reflexivity]. intros x [<-|[]]. right. now left.
Qed.
(** A key written with capitals is not found. *)
Definition dict_capital : defs := [head; cat_with "atom" "Core" "Loop" (text "_Atom.Id"); key_item "_atom.id" "atom" "id"].
Theorem C65_capital_refuted : exists d names, well_formed d /\ has_key d (u "atom") [u "_Atom.Id"] /\ In (lower (u "_Atom.Id")) (map u names) /\ run_check d names = Ret (RFalse [] [u "_Atom.Id"]).
Proof.
  exists dict_capital, ["_atom.id"]. split; [apply wf_check; vm_compute; reflexivity|]. split; [eexists; split; [right; left; reflexivity|apply ki_one; vm_compute; reflexivity]|].
  split; [left; vm_compute; reflexivity|vm_compute; reflexivity].
Qed.

(** ** C66: names from category and object *)
(** The category as given, without an underscore left at its beginning. *)
Definition bare (cat c : str) : Prop := cat = 95%N :: c \/ (cat = c /\ c <> [] /\ forall x, c <> 95%N :: x).
(** Whatever is found is an item of the category with that object id, or there is no such
    item, and it is one of a loop category below. *)
Theorem C66_found n d tbl cat obj nm : well_formed d -> cat_obj_table n d = Ret tbl -> name_by_cat_obj tbl cat obj = Ret nm ->
  exists c, bare cat c /\ (owns d (lower c) (lower obj) nm \/ ((forall nm', ~ owns d (lower c) (lower obj) nm') /\ exists c', loop_below d (lower c) c' /\ holds d c' (lower obj) nm)).
Proof.
  intros W E F. apply name_lookup in F. destruct F as (c & r & B & G). exists c. split; [exact B|]. destruct (cat_obj_ok n d tbl W E) as (A & _).
  destruct (A _ _ _ G) as (nm' & r' & Eq & P). injection Eq as <- <-. exact P.
Qed.
(** An item is found under its own category and object. *)
Theorem C66_own n d tbl cat c obj nm : well_formed d -> cat_obj_table n d = Ret tbl -> bare cat c -> owns d (lower c) (lower obj) nm -> (forall nm', owns d (lower c) (lower obj) nm' -> nm' = nm) ->
  name_by_cat_obj tbl cat obj = Ret nm.
Proof.
  intros W E B O U. destruct (cat_obj_ok n d tbl W E) as (A & P & _). apply name_lookup. exists c. destruct (dget pair_eqb (lower c, lower obj) tbl) as [ns|] eqn:G; [|now destruct (P _ _ _ O)].
  destruct (A _ _ _ G) as (nm' & r & -> & [O'|(N & _)]); [|now destruct (N nm)]. exists r. split; [exact B|]. now rewrite (U nm' O').
Qed.
(** An item of a loop category is found under the loop category above it, if no other item
    there has this object. *)
Theorem C66_child n d tbl cat p c obj nm : well_formed d -> cat_obj_table n d = Ret tbl -> bare cat p -> loop_child d (lower p) c -> holds d c (lower obj) nm ->
  (forall c' o', ~ holds d c' nm o') -> (forall nm', ~ owns d (lower p) (lower obj) nm') -> (forall c' nm', loop_below d (lower p) c' -> holds d c' (lower obj) nm' -> nm' = nm) ->
  name_by_cat_obj tbl cat obj = Ret nm.
Proof.
  intros W E B L H N O U. destruct (cat_obj_ok n d tbl W E) as (A & _ & P). apply name_lookup. exists p. destruct (dget pair_eqb (lower p, lower obj) tbl) as [ns|] eqn:G; [|now destruct (P _ _ _ _ L H N)].
  destruct (A _ _ _ G) as (nm' & r & -> & [O'|(_ & c' & B' & H')]); [now destruct (O nm')|]. exists r. split; [exact B|]. now rewrite (U c' nm' B' H').
Qed.
(** The table is computed. *)
Theorem C66_total n d height : well_formed d -> (forall p c, loop_child d p c -> height c < height p) -> (forall p c, loop_child d p c -> height p < n) -> described d -> apart d ->
  exists tbl, cat_obj_table n d = Ret tbl.
Proof. apply cat_obj_total. Qed.
Example C66_meets : well_formed dict1 /\ described dict1 /\ apart dict1 /\ loop_child dict1 (lower (u "Atom")) (u "aniso") /\ holds dict1 (u "aniso") (u "u") (u "_aniso.u")
  /\ (exists height, (forall p c, loop_child dict1 p c -> height c < height p) /\ (forall p c, loop_child dict1 p c -> height p < 5))
  /\ obind (cat_obj_table 5 dict1) (fun t => name_by_cat_obj t (u "Atom") (u "U")) = Ret (u "_aniso.u")
  /\ obind (cat_obj_table 5 dict1) (fun t => name_by_cat_obj t (u "_atom") (u "x")) = Ret (u "_atom.x").
Proof.
  assert (forall a k, loop_child dict1 a k <-> exists ks, In (a, ks) [(u "atom", [u "aniso"])] /\ In k ks) as L by (apply loop_child_list; [exact dict1_wf|vm_compute; reflexivity]).
  split; [exact dict1_wf|]. destruct (described_check dict1) as (D & A); [vm_compute; reflexivity|]. split; [exact D|]. split; [exact A|]. split; [|split; [|split; [|split; vm_compute; reflexivity]]].
  - apply L. eexists. split; [left; vm_compute; reflexivity|now left].
  - exists (u "_aniso.u"). eexists _, _. split; [do 6 right; left; reflexivity|]. split; [left; vm_compute; reflexivity|].
    split; [eexists; split; [do 6 right; left; reflexivity|left; eexists; split; [vm_compute; reflexivity|vm_compute; reflexivity]]|].
    split; [vm_compute; reflexivity|]. split; [vm_compute; reflexivity|]. split; [vm_compute; reflexivity|]. vm_compute. discriminate.
  - exists (fun a => if str_eqb a (u "atom") then 1 else 0). split; intros p c K; apply L in K; destruct K as (ks & [K|[]] & J); injection K as <- <-; destruct J as [<-|[]]; vm_compute; lia.
Qed.
(** Two categories below the second level: the items of the first of them are lost for
    the top level. *)
Definition dict_deep : defs :=
  [head; cat_with "a" "core" "Loop" (text "_a.id"); key_item "_a.id" "a" "id"; cat_with "b" "a" "Loop" (text "_b.id"); key_item "_b.id" "b" "id";
   cat_with "c" "b" "Loop" (text "_c.id"); key_item "_c.id" "c" "id"; item "_c.x" "c" "x"; cat_with "e" "b" "Loop" (text "_e.id"); key_item "_e.id" "e" "id"; item "_e.y" "e" "y"].
Theorem C66_deep_refuted : exists d p c o nm, well_formed d /\ described d /\ apart d /\ loop_below d p c /\ holds d c o nm
  /\ (forall nm', ~ owns d p o nm') /\ obind (cat_obj_table 5 d) (fun t => name_by_cat_obj t p o) = Raise KeyErr.
Proof.
  exists dict_deep, (u "a"), (u "c"), (u "x"), (u "_c.x"). assert (well_formed dict_deep) as W by (apply wf_check; vm_compute; reflexivity). split; [exact W|].
  destruct (described_check dict_deep) as (D & A); [vm_compute; reflexivity|]. split; [exact D|]. split; [exact A|].
  assert (forall a k, loop_child dict_deep a k <-> exists ks, In (a, ks) [(u "a", [u "b"]); (u "b", [u "c"; u "e"])] /\ In k ks) as L by (apply loop_child_list; [exact W|vm_compute; reflexivity]).
  split; [|split; [|split; [|vm_compute; reflexivity]]].
  - apply lb_more with (u "b"); [apply lb_one|]; apply L; [exists [u "b"]|exists [u "c"; u "e"]]; (split; [|now left]); [now left|right; now left].
  - exists (u "_c.x"). eexists _, _. split; [do 7 right; left; reflexivity|]. split; [left; vm_compute; reflexivity|].
    split; [eexists; split; [do 7 right; left; reflexivity|left; eexists; split; [vm_compute; reflexivity|vm_compute; reflexivity]]|].
    split; [vm_compute; reflexivity|]. split; [vm_compute; reflexivity|]. split; [vm_compute; reflexivity|]. vm_compute. discriminate.
  - intros nm' (k & t & s & s' & I & S & R & E & R' & E' & _).
    repeat (destruct I as [I|I]; [injection I as <- <-; destruct R as [R|(R & _)]; vm_compute in R; try discriminate R; destruct R' as [R'|(R' & _)]; vm_compute in R'; try discriminate R';
      first [injection R as <-; vm_compute in E; discriminate E|injection R' as <-; vm_compute in E'; discriminate E'|destruct S as [S|S]; vm_compute in S; discriminate S|
             subst s'; vm_compute in E'; discriminate E']|]). destruct I.
Qed.
(** An empty category is answered with IndexError. *)
Theorem C66_empty_refuted : exists tbl obj, name_by_cat_obj tbl [] obj = Raise IndexErr.
Proof. exists [], []. reflexivity. Qed.

(** ** C67: the key hierarchy *)
(** The names equivalent to a name of a key are those reached by following links, one for
    each loop category above the category; other names have no entry. *)
Theorem C67_hierarchy n d e : well_formed d -> own_items d -> keys_distinct d -> key_equivs n d = Ret e ->
  (forall c ks k, category d c -> looped d c -> has_key d c ks -> In k ks -> exists l, loops_above d c (length l) /\ links d k l /\ dget str_eqb k e = match l with [] => None | _ => Some l end)
  /\ (forall k, (forall c ks, category d c -> looped d c -> has_key d c ks -> ~ In k ks) -> dget str_eqb k e = None).
Proof. intros W O K. now apply key_equivs_ok. Qed.
Definition own_b (d : defs) : bool :=
  forallb (fun kt => negb (is_loop (snd kt)) || match tget (u "_category_key.name") (snd kt) with
    | Some (VStr s) => match dget str_eqb (lower s) d with Some t' => match tget (u "_name.category_id") t' with Some (VStr c) => str_eqb (lower c) (fst kt) | _ => false end | None => false end
    | _ => false end) d.
Lemma own_check d : well_formed d -> own_b d = true -> own_items d /\ keys_distinct d.
Proof.
  intros W F. unfold own_b in F. rewrite forallb_forall in F.
  assert (forall c t ks, In (c, t) d -> looped d c -> key_is t ks -> exists s, ks = [s] /\ exists t' x, In (lower s, t') d /\ tget (u "_name.category_id") t' = Some (VStr x) /\ lower x = c) as H.
  { intros c t ks I L K. specialize (F _ I). cbn [fst snd] in F. rewrite (loop_of d c t W I L) in F. cbn [negb orb] in F.
    destruct (tget (u "_category_key.name") t) as [[s| | | | |]|] eqn:E; try discriminate F. exists s. split; [destruct K as [s' K|l K|l K|s' K K']; rewrite K in E; try discriminate E; now injection E as ->|].
    destruct (dget str_eqb (lower s) d) as [t'|] eqn:G; [|discriminate F]. destruct (tget (u "_name.category_id") t') as [[x| | | | |]|] eqn:C; try discriminate F.
    exists t', x. split; [now apply (defs_dget d _ _ (w_keys d W))|]. split; [exact C|]. now destruct (str_eqb_spec (lower x) c). }
  split; [|split].
  - intros c t ks k I _ L K J. destruct (H c t ks I L K) as (s & -> & P). destruct J as [<-|[]]. exact P.
  - intros c t ks I L K. destruct (H c t ks I L K) as (s & -> & _). constructor; [intros []|constructor].
  - intros c t ks c' t' ks' k I I' L L' K K' J J'. destruct (H c t ks I L K) as (s & -> & t1 & x & D & C & <-). destruct (H c' t' ks' I' L' K') as (s' & -> & t2 & x' & D' & C' & <-).
    destruct J as [<-|[]], J' as [<-|[]]. apply (defs_dget d _ _ (w_keys d W)) in D, D'. rewrite D in D'. injection D' as <-. rewrite C in C'. now injection C' as ->.
Qed.
Example C67_meets : well_formed dict3 /\ own_items dict3 /\ keys_distinct dict3 /\ key_equivs 5 dict3 = Ret [(u "_aniso.id", [u "_atom.id"]); (u "_part.id", [u "_aniso.id"; u "_atom.id"])].
Proof. split; [exact dict3_wf|]. destruct (own_check dict3 dict3_wf) as (A & B); [vm_compute; reflexivity|]. split; [exact A|]. split; [exact B|]. vm_compute. reflexivity. Qed.
(** A link spelled with other capitals than the key it leads to cannot be loaded. *)
Definition dict_case : defs :=
  [head; cat_with "atom" "Core" "Loop" (text "_atom.id"); key_item "_atom.id" "atom" "id"; cat_with "aniso" "atom" "Loop" (text "_aniso.id"); link_item "_aniso.id" "aniso" "id" "_Atom.id"].
Theorem C67_case_refuted : exists d k t s, well_formed d /\ own_items d /\ keys_distinct d /\ In (k, t) d /\ tget (u "_name.linked_item_id") t = Some (VStr s) /\ has_key d (u "atom") [lower s] /\ key_equivs 5 d = Raise CifErr.
Proof.
  exists dict_case, (u "_aniso.id"). eexists _, (u "_Atom.id"). assert (well_formed dict_case) as W by (apply wf_check; vm_compute; reflexivity). destruct (own_check dict_case W) as (A & B); [vm_compute; reflexivity|].
  split; [exact W|]. split; [exact A|]. split; [exact B|]. split; [do 4 right; left; reflexivity|]. split; [vm_compute; reflexivity|]. split; [|vm_compute; reflexivity].
  eexists. split; [right; left; reflexivity|]. apply ki_one. vm_compute. reflexivity.
Qed.

Definition key_theorems := (C65_key_table, C65_three_levels, C65_nested_refuted, C65_check, C65_compound_refuted, C65_child_refuted, C65_capital_refuted,
  C66_found, C66_own, C66_child, C66_total, C66_deep_refuted, C66_empty_refuted, C67_hierarchy, C67_case_refuted).
Print Assumptions key_theorems.
