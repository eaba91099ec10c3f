(** C111: the order in which a dictionary is written. *)
From Coq Require Import String Ascii List NArith PeanoNat Bool Lia Permutation.
From Verif Require Import PyBase PyFacts StarBlockModel CollectionModel CollectionProofs ValidateModel ValidateProofs ValidateProofs2 TreeModel TreeSpec TreeProofs TreeProofs2 PropertiesTree OutlineModel OutlineSpec OutlineProofs OutlineProofs2.
Import ListNotations.
Open Scope nat_scope.

(** ** C111 *)
(** All definitions, each once, after the data block; categories before their members;
    below the head the items of a category directly after it, by name. *)
Theorem C111_order : forall n ord b root height, plain b -> acyclic (id_table b) height -> only_head (id_table b) root -> category (id_table b) root -> tidy (id_table b) root -> (forall l, Permutation (ord l) l) -> height root < n ->
  exists l, full_child_list n ord b = Ret (bk_top b :: l) /\ Permutation l (map fst (id_table b)) /\
    (forall a c, child (id_table b) a c -> category (id_table b) c -> a <> root -> before l c a) /\
    (forall c, category (id_table b) c -> under (id_table b) root c -> exists x items z, l = x ++ (c :: items) ++ z /\ Sorted.StronglySorted (fun x y => str_leb x y = true) items /\ forall a, In a items <-> child (id_table b) a c /\ ~ category (id_table b) a).
Proof. exact full_ok. Qed.
Theorem C111_no_head : forall n ord b, well_formed (id_table b) -> (forall top, ~ only_head (id_table b) top) -> full_child_list n ord b = Raise ValueErr.
Proof.
  intros n ord b W H. pose proof (C48_no_head (id_table b) W H) as E. unfold root_category in E. unfold full_child_list. destruct (filter (fun kt => is_head (snd kt)) (id_table b)) as [|[k t] [|? ?]]; try reflexivity. discriminate E.
Qed.
Definition same_names (d : defs) : list (str * str * table) := map (fun kt => (fst kt, fst kt, snd kt)) d.
Lemma same_names_ids top tt d : id_table (mkBook top tt (same_names d)) = d.
Proof. unfold id_table, same_names. cbn [bk_defs]. rewrite map_map. rewrite <- (map_id d) at 2. apply map_ext. now intros [k t]. Qed.
Definition book0 : book := mkBook (u "core_dic") [] (same_names dict0).
Lemma book0_ids : id_table book0 = dict0. Proof. exact (same_names_ids _ _ dict0). Qed.
Lemma book0_plain : plain book0.
Proof.
  split.
  - rewrite book0_ids. exact dict0_wf.
  - intros n i t I. unfold book0, same_names in I. cbn [bk_defs] in I. repeat (destruct I as [I|I]; [injection I as <- <- _; split; [reflexivity|discriminate]|]). destruct I.
  - rewrite book0_ids. intros k t I. repeat (destruct I as [I|I]; [injection I as _ <-; vm_compute; tauto|]). destruct I.
  - rewrite book0_ids. split; [|split; reflexivity]. vm_compute. intuition discriminate.
Qed.
Lemma dict0_children a c : child dict0 a c -> exists s, In (a, s) [(u "core", u "core_dic"); (u "atom", u "core"); (u "_atom.x", u "atom"); (u "aniso", u "atom"); (u "_aniso.u", u "aniso"); (u "_lost.x", u "lost"); (u "extra", u "lost"); (u "_extra.y", u "extra")] /\ s = lower c.
Proof.
  intros (t & I & K). repeat (destruct I as [I|I]; [injection I as <- <-; (destruct K as [(s & E & <-)|(E & _)]; [|discriminate E]); injection E as <-; eexists; split; [vm_compute; tauto|vm_compute; reflexivity]|]). destruct I.
Qed.
Lemma dict0_cats a : category dict0 a -> In a [u "core"; u "atom"; u "aniso"; u "extra"].
Proof. intros (t & I & E). repeat (destruct I as [I|I]; [injection I as <- <-; first [discriminate E|vm_compute; tauto]|]). destruct I. Qed.
Lemma dict0_loose a : loose dict0 (u "core") a -> In a [u "_lost.x"; u "extra"; u "_extra.y"].
Proof.
  intros L. destruct (C48_danglers 4 dict0 height0 (u "core") dict0_wf dict0_acyclic dict0_head) as (l & E & H); [vm_compute; lia|]. vm_compute in E. injection E as <-. apply H. split; [|exact L].
  inversion L as [? c _ C _ _|? c _ C _ _]; subst; exact (child_key dict0 a c C).
Qed.
Lemma book0_tidy : tidy (id_table book0) (u "core").
Proof.
  rewrite book0_ids. split.
  - intros a L. apply dict0_loose in L. repeat (destruct L as [<-|L]; [do 2 eexists; split; [vm_compute; tauto|vm_compute; reflexivity]|]). destruct L.
  - intros a c L C Ch Cc. apply dict0_loose in L. apply dict0_cats in C, Cc. apply dict0_children in Ch as (s & I & ->). destruct L as [<-|[<-|[<-|[]]]]; vm_compute in C, I, Cc; intuition congruence.
  - intros a c L NC _ _. apply dict0_loose in L. destruct L as [<-|[<-|[<-|[]]]].
    + exists (u "_lost"), (u "x"). split; [reflexivity|]. split; [discriminate|]. split; vm_compute; intuition discriminate.
    + elim NC. exists (cat_def "lost" "Set"). split; [vm_compute; tauto|reflexivity].
    + exists (u "_extra"), (u "y"). split; [reflexivity|]. split; [discriminate|]. split; vm_compute; intuition discriminate.
Qed.
Example C111_meets : plain book0 /\ tidy (id_table book0) (u "core") /\ acyclic (id_table book0) height0 /\ only_head (id_table book0) (u "core") /\ height0 (u "core") < 4 /\
  full_child_list 4 (fun l => l) book0 = Ret (map u ["core_dic"; "core"; "atom"; "_atom.x"; "aniso"; "_aniso.u"; "extra"; "_extra.y"; "_lost.x"]%string).
Proof. split; [exact book0_plain|]. split; [exact book0_tidy|]. rewrite book0_ids. split; [exact dict0_acyclic|]. split; [exact dict0_head|]. split; [vm_compute; lia|]. vm_compute. reflexivity. Qed.

Definition nested_dict : defs := [(u "core", cat_def "core_dic" "Head"); (u "outer", cat_def "lost" "Set"); (u "inner", cat_def "outer" "Set")].
(** Two categories outside, one within the other: nothing is written. *)
Theorem C111_nested_refuted : exists b, (forall k t, In (k, t) (id_table b) -> exists s, tget (u "_name.category_id") t = Some (VStr s)) /\ id_table b = nested_dict /\
  forall ord, (forall l, Permutation (ord l) l) -> full_child_list 4 ord b = Raise ValueErr.
Proof.
  exists (mkBook (u "core_dic") [] (same_names nested_dict)). split; [|split; [apply same_names_ids|]].
  - rewrite same_names_ids. intros k t I. repeat (destruct I as [I|I]; [injection I as _ <-; eexists; reflexivity|]). destruct I.
  - intros ord Ho. assert (exists x y, ord [u "outer"; u "inner"] = [x; y] /\ (x = u "outer" /\ y = u "inner" \/ x = u "inner" /\ y = u "outer")) as (x & y & E & C).
    { specialize (Ho [u "outer"; u "inner"]). symmetry in Ho. apply Permutation_length_2_inv in Ho as [E|E]; rewrite E; do 2 eexists; split; try reflexivity; tauto. }
    unfold full_child_list.
    replace (filter (fun kt => is_head (snd kt)) (id_table (mkBook (u "core_dic") [] (same_names nested_dict)))) with [(u "core", cat_def "core_dic" "Head")] by (vm_compute; reflexivity).
    replace (recurse 4 (mkBook (u "core_dic") [] (same_names nested_dict)) (u "core")) with (@Ret (list str) [u "core"]) by (vm_compute; reflexivity). cbn [obind]. cbv zeta.
    replace (danglers 4 (id_table (mkBook (u "core_dic") [] (same_names nested_dict)))) with (@Ret (list str) [u "outer"; u "inner"]) by (vm_compute; reflexivity). cbn [obind]. rewrite E.
    destruct C as [[-> ->]|[-> ->]]; vm_compute; reflexivity.
Qed.
(** A definition outside whose name has no period: nothing is written, although it names
    its category. *)
Theorem C111_period_refuted : exists b a t s, In (a, a, t) (bk_defs b) /\ tget (u "_name.category_id") t = Some (VStr s) /\ full_child_list 4 (fun l => l) b = Raise ValueErr /\
  full_child_list 4 (fun l => l) (mkBook (bk_top b) (bk_top_table b) (map (fun e => if str_eqb (fst (fst e)) a then (a ++ u ".x", a ++ u ".x", snd e) else e) (bk_defs b))) = Ret [bk_top b; u "core"; a ++ u ".x"].
Proof. exists (mkBook (u "core_dic") [] (same_names [(u "core", cat_def "core_dic" "Head"); (u "_cell", item_def "lost")])), (u "_cell"), (item_def "lost"), (u "lost"). split; [vm_compute; tauto|]. split; [reflexivity|]. split; vm_compute; reflexivity. Qed.
(** A definition outside without a category, besides a category outside. *)
Theorem C111_unnamed_refuted : exists b, full_child_list 4 (fun l => l) b = Raise KeyErr /\ map fst (id_table b) = [u "core"; u "extra"; u "_a.b"].
Proof. exists (mkBook (u "core_dic") [] (same_names [(u "core", cat_def "core_dic" "Head"); (u "extra", cat_def "lost" "Set"); (u "_a.b", [])])). split; vm_compute; reflexivity. Qed.
(** What is outside is listed by its definition id; if its block has another name, as
    is usual, there is no block of that name to write. *)
Theorem C111_id_refuted : exists b l a t, full_child_list 4 (fun l => l) b = Ret l /\ In (a, 95%N :: a, t) (bk_defs b) /\ ~ In a l /\ In (95%N :: a) l /\ ~ In (95%N :: a) (bk_names b) /\
  top_blocks l ((bk_top b, PC (bk_top b) None) :: map (fun e => (fst (fst e), PC (fst (fst e)) (Some (bk_top b)))) (bk_defs b)) = Raise KeyErr.
Proof.
  exists (mkBook (u "core_dic") [] [(u "core", u "core", cat_def "core_dic" "Head"); (u "lost.x", u "_lost.x", item_def "lost")]). eexists. exists (u "lost.x"), (item_def "lost"). split; [vm_compute; reflexivity|]. split; [vm_compute; tauto|].
  split; [vm_compute; intuition discriminate|]. split; [vm_compute; tauto|]. split; [vm_compute; intuition discriminate|]. vm_compute. reflexivity.
Qed.
(** A definition whose scope is written differently is left out. *)
Theorem C111_scope_refuted : exists b l a t, full_child_list 4 (fun l => l) b = Ret l /\ In (a, a, t) (bk_defs b) /\ tget (u "_definition.scope") t = Some (VStr (u "item")) /\ ~ In a l.
Proof.
  exists (mkBook (u "core_dic") [] (same_names [(u "core", cat_def "core_dic" "Head"); (u "_core.x", (u "_definition.scope", text "item") :: item_def "core")])). eexists. exists (u "_core.x"), ((u "_definition.scope", text "item") :: item_def "core"). split; [vm_compute; reflexivity|]. split; [vm_compute; tauto|]. split; [reflexivity|]. vm_compute. intuition discriminate.
Qed.

Definition outline_theorems := (C111_order, C111_no_head, C111_nested_refuted, C111_period_refuted, C111_unnamed_refuted, C111_id_refuted, C111_scope_refuted).
Print Assumptions outline_theorems.
