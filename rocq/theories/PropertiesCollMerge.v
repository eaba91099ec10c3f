(** Properties of merges and selections of collections: C70 and C71. *)
From Coq Require Import String Ascii List NArith ZArith Bool Permutation Lia.
From Verif Require Import PyBase PyFacts StarBlockModel ScanModel CollectionModel CollectionSpec CollectionProofs CollectionProofs2 CollectionProofs3
  MergeModel PropertiesCollection CollMergeModel CollMergeSpec CollMergeProofs.
Import ListNotations.
Open Scope nat_scope.

(** * C70: merging collections *)
(** Blocks that are new are all added, with their contents, names and parents,
    behind the blocks already there, which stay as they are. *)
Theorem C70_disjoint : forall mode parent idb n c,
  CWF c -> visible_ok c -> CWF n -> plain_ids n -> parents_first (c_child n) ->
  (forall k, In k (ckeys n) -> ~ In k (ckeys c)) ->
  (forall k e, In (k, e) (c_child n) -> fine_name (pc_id e) /\ pc_id e <> idb) ->
  (forall k b, In (k, b) (c_dict n) -> fine_block (c_std c) b) ->
  (forall q, parent = Some q -> In (lower q) (ckeys c)) ->
  exists c', coll_merge mode parent idb None n c = (c', Ret tt) /\ CWF c' /\ visible_ok c'
    /\ (forall x, In x (ckeys c') <-> In x (ckeys c) \/ In x (ckeys n))
    /\ (forall x, In x (ckeys c) -> c_get x c' = c_get x c /\ entry_of c' x = entry_of c x)
    /\ (forall x b, In (x, b) (c_dict n) -> c_get x c' = Ret (stored c b))
    /\ (forall x e, In (x, e) (c_child n) -> entry_of c' x = Some (PC (pc_id e) (given_parent parent (pc_parent e))))
    /\ c_order c' = c_order c ++ map fst (c_child n).
Proof. exact merge_disjoint_collections. Qed.
(** Outside replace mode a merge that succeeds had no visible name in common. *)
Theorem C70_common_refused : forall mode parent idb n c c', c_std c <> StdNone -> mode <> Some MReplace ->
  (forall k e, In (k, e) (c_child n) -> fix_name true (pc_id e) = pc_id e) ->
  coll_merge mode parent idb None n c = (c', Ret tt) ->
  forall k e, In (k, e) (c_child n) -> pc_id e <> idb -> c_has (pc_id e) c = false.
Proof. exact merge_refuses. Qed.

Definition one (name t : string) (sd : standard) : coll := run_cops [KNew (u name) (blk t) true None] (new_coll sd Instance false).
(** Replace mode does not replace in a collection held to a standard: it fails. *)
Theorem C70_replace_refuted : exists n c, CWF c /\ CWF n /\ c_std c = StdCif /\
  coll_merge (Some MReplace) None (u "") None n c = (c, Raise StarErr).
Proof.
  exists (one "a" "2" StdCif), (one "A" "1" StdCif).
  split; [|split].
  1,2: refine (proj1 (run_cops_ok _ _ (proj1 (new_coll_CWF _ _ _)) (proj2 (new_coll_CWF _ _ _)) _)); cbn [reachable_ops]; (split; [|exact I]);
    split; [intros q E; discriminate E|vm_compute; intros X; discriminate X].
  split; vm_compute; reflexivity.
Qed.
(** A merge that fails leaves what it had already added. *)
Theorem C70_atomic_refuted : exists n c c', coll_merge None None (u "") None n c = (c', Raise StarErr) /\
  c_has (u "new") c = false /\ c_has (u "new") c' = true.
Proof.
  exists (run_cops [KNew (u "new") (blk "1") true None; KNew (u "a") (blk "2") true None] (new_coll StdCif Instance false)), (one "a" "3" StdCif).
  eexists. split; [vm_compute; reflexivity|]. split; vm_compute; reflexivity.
Qed.
Theorem C70_overlay_fails : forall parent idb n c c', c_std c <> StdNone ->
  (forall k e, In (k, e) (c_child n) -> fix_name true (pc_id e) = pc_id e) ->
  (exists k e, In (k, e) (c_child n) /\ pc_id e <> idb /\ c_has (pc_id e) c = true) ->
  coll_merge (Some MOverlay) parent idb None n c <> (c', Ret tt).
Proof.
  intros parent idb n c c' S F (k & e & I & N & H) E.
  rewrite (merge_refuses (Some MOverlay) parent idb n c c' S ltac:(discriminate) F E k e I N) in H. discriminate.
Qed.
(** Overlay mode never overlays. *)
Theorem C70_overlay_refuted : exists n c k b, c_std c = StdCif /\ c_get k c = Ret b /\ c_has k n = true /\ forall c', coll_merge (Some MOverlay) None (u "") None n c <> (c', Ret tt).
Proof.
  exists (one "a" "2" StdCif), (one "A" "1" StdCif), (u "a"). eexists. split; [reflexivity|]. split; [vm_compute; reflexivity|]. split; [vm_compute; reflexivity|].
  intros c' E. vm_compute in E. discriminate E.
Qed.
(** With match_att the place found among the visible blocks is used in the table of
    all blocks: the incoming block that matches "b" is added under the name of the
    save frame. *)
Theorem C70_match_refuted : exists n c c', 
  c = run_cops [KNew (u "a") (blk "1") true None; KNew (u "f") (blk "9") true (Some (u "a")); KNew (u "b") (blk "2") true None] (new_coll StdCif Instance false) /\
  n = one "x" "2" StdCif /\
  coll_merge (Some MStrict) None (u "") (Some (u "_v")) n c = (c', Ret tt) /\
  c_has (u "x") c' = false /\ obind (c_get (u "f+") c') (get_item (u "_v")) = Ret (VStr (u "2")) /\ entry_of c' (u "f+") = Some (PC (u "f") None).
Proof.
  eexists _, _, _. split; [reflexivity|]. split; [reflexivity|].
  split; [vm_compute; reflexivity|]. repeat split; vm_compute; reflexivity.
Qed.
(** Incoming blocks are looked up by their printed names: a collection with a data
    block and a save frame of the same name cannot even be merged into an empty one,
    and leaves a block without an entry in the table there. *)
Theorem C70_same_name_refuted : exists n c', CWF n /\
  n = run_cops [KNew (u "t") (blk "1") true None; KNew (u "T") (blk "2") true (Some (u "t"))] (new_coll StdCif Instance false) /\
  coll_merge (Some MStrict) None (u "") None n (new_coll StdCif Instance false) = (c', Raise StarErr) /\
  ckeys c' = [u "t"] /\ c_child c' = [].
Proof.
  eexists _, _. split; [|split; [reflexivity|]].
  - refine (proj1 (run_cops_ok _ _ (proj1 (new_coll_CWF _ _ _)) (proj2 (new_coll_CWF _ _ _)) _)).
    cbn [reachable_ops]. split; [|split; [|exact I]]; (split; [|vm_compute; intros X; discriminate X]);
      intros q E; try discriminate E; injection E as <-; known.
  - split; [vm_compute; reflexivity|]. split; vm_compute; reflexivity.
Qed.
Lemma nested_child : c_child (nested Dictionary) =
  [(u "top", PC (u "Top") None); (u "cat", PC (u "Cat") (Some (u "top"))); (u "item", PC (u "Item") (Some (u "cat"))); (u "other", PC (u "Other") None)].
Proof. vm_compute. reflexivity. Qed.
Lemma nested_keys : ckeys (nested Dictionary) = [u "top"; u "cat"; u "item"; u "other"].
Proof. vm_compute. reflexivity. Qed.
Lemma nested_names : forallb (fun kb => forallb (fun x => Nat.leb (length x) 75) (b_keys (snd kb))) (c_dict (nested Dictionary)) = true.
Proof. vm_compute. reflexivity. Qed.
Lemma one_keys : ckeys (one "z" "1" StdCif) = [u "z"].
Proof. vm_compute. reflexivity. Qed.
Example C70_meets : exists n c, CWF c /\ visible_ok c /\ CWF n /\ plain_ids n /\ parents_first (c_child n) /\
  (forall k, In k (ckeys n) -> ~ In k (ckeys c)) /\
  (forall k e, In (k, e) (c_child n) -> fine_name (pc_id e) /\ pc_id e <> u "") /\
  (forall k b, In (k, b) (c_dict n) -> fine_block (c_std c) b) /\
  c_std c = StdCif /\ length (ckeys n) = 4 /\ length (ckeys c) = 1.
Proof.
  exists (nested Dictionary), (one "z" "1" StdCif).
  destruct (run_cops_ok [KNew (u "z") (blk "1") true None] _ (proj1 (new_coll_CWF StdCif Instance false)) (proj2 (new_coll_CWF StdCif Instance false))) as (W & V).
  { cbn [reachable_ops]. split; [|exact I]. split; [intros q E; discriminate E|vm_compute; intros X; discriminate X]. }
  split; [exact W|]. split; [exact V|]. split.
  { exact (proj1 (nested_ok _)). }
  split.
  { intros k e I. rewrite nested_child in I. repeat (destruct I as [[= <- <-]|I]; [reflexivity|]). contradiction I. }
  split.
  { intros l1 k e p l2 E P. rewrite nested_child in E.
    destruct l1 as [|a1 [|a2 [|a3 [|a4 [|a5 l1]]]]]; cbn [app] in E; injection E; intros; subst; cbn [pc_parent] in P; try discriminate; injection P as <-; cbn [map fst In]; auto. }
  split.
  { intros k. rewrite nested_keys, one_keys. intros I [<-|[]]. repeat (destruct I as [E|I]; [discriminate E|]). contradiction I. }
  split.
  { intros k e I. rewrite nested_child in I. repeat (destruct I as [[= <- <-]|I]; [split; [split; [vm_compute; lia|reflexivity]|cbn; intros X; discriminate X]|]). contradiction I. }
  split.
  { intros k b I _ x J. pose proof nested_names as F. rewrite forallb_forall in F. specialize (F _ I). cbn [snd] in F.
    rewrite forallb_forall in F. specialize (F x J). now apply Nat.leb_le in F. }
  rewrite nested_keys, one_keys. repeat split.
Qed.

(** * C71: selecting blocks *)
(** Whatever the names, the new collection has exactly the blocks named. *)
Theorem C71_part : forall names sc c, CWF c -> exists n, makebc names sc c = Ret n /\ part_of names c n /\ c_order n = map lower names /\ c_scope n = sc.
Proof.
  intros names sc c W. destruct (makebc_part names sc c W) as (n & A & B & C & D & _). exists n. auto.
Qed.
(** If they exist and differ, it is a collection in good order. *)
Theorem C71_consistent_partial : forall names sc c, CWF c -> NoDup (map lower names) -> (forall x, In x (map lower names) -> In x (ckeys c)) ->
  exists n, makebc names sc c = Ret n /\ CWF n /\ visible_ok n.
Proof.
  intros names sc c W N S. destruct (makebc_part names sc c W) as (n & A & _ & _ & _ & _ & B). exists n. destruct (B N S). auto.
Qed.
(** A name that is not there is not refused, and the result cannot be written. *)
Theorem C71_absent_refuted : exists names c n, CWF c /\ makebc names Dictionary c = Ret n /\ ~ CWF n /\ write_plan n = Raise KeyErr.
Proof.
  exists [u "other"; u "gone"], (nested Dictionary). eexists. split; [exact (proj1 (nested_ok _))|]. split; [vm_compute; reflexivity|].
  split; [|vm_compute; reflexivity]. intros W. pose proof (cw_order _ W) as P. apply Permutation_length in P. vm_compute in P. discriminate P.
Qed.
(** A name given twice is written twice. *)
Theorem C71_twice_refuted : exists names c n, CWF c /\ makebc names Dictionary c = Ret n /\ ~ CWF n /\
  write_plan n = Ret [WHead (u "other"); WBody (u "other"); WHead (u "other"); WBody (u "other")].
Proof.
  exists [u "other"; u "OTHER"], (nested Dictionary). eexists. split; [exact (proj1 (nested_ok _))|]. split; [vm_compute; reflexivity|].
  split; [|vm_compute; reflexivity]. intros W. pose proof (cw_order _ W) as P. apply Permutation_length in P. vm_compute in P. discriminate P.
Qed.
Example C71_meets : exists names c, CWF c /\ NoDup (map lower names) /\ (forall x, In x (map lower names) -> In x (ckeys c)) /\ length names = 2.
Proof.
  exists [u "ITEM"; u "Cat"], (nested Dictionary). split; [exact (proj1 (nested_ok _))|]. split; [repeat constructor; vm_compute; intuition discriminate|].
  split; [|reflexivity]. intros x I. rewrite nested_keys. cbn [map] in I. destruct I as [<-|[<-|[]]]; vm_compute; auto.
Qed.

Definition collmerge_theorems := (C70_disjoint, C70_common_refused, C70_replace_refuted, C70_atomic_refuted, C70_overlay_refuted, C70_overlay_fails, C70_match_refuted, C70_same_name_refuted,
  C71_part, C71_consistent_partial, C71_absent_refuted, C71_twice_refuted).
Print Assumptions collmerge_theorems.
