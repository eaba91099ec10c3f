(** Theorems about looking over all blocks of a collection. *)
From Coq Require Import String Ascii List NArith ZArith Bool Permutation.
From Verif Require Import PyBase PyFacts StarBlockModel LoopModel LoopSpec CollectionModel CollectionSpec CollectionProofs CollectionProofs2 CollectionProofs3 PropertiesCollection SurveyModel SurveySpec SurveyProofs.
Import ListNotations.
Open Scope list_scope.

(* ------------------------------------------------------------------ C130 *)
Theorem C130_get_all : forall c name, CWF c -> visible_ok c -> readable c ->
  exists vs, get_all name c = Ret vs /\
  (forall v, In v vs -> occurs c name v) /\
  (forall v, occurs c name v -> exists x, In x vs /\ (x = v \/ same_value x v)) /\ all_different vs.
Proof. intros c name W V. exact (get_all_spec c W V name). Qed.

(** All visible blocks are listed under their keys, in order; the first of them is
    the first block. *)
Theorem C130_items : forall c, CWF c -> visible_ok c ->
  exists l, c_items c = Ret l /\ map fst l = c_vis c /\ forall k b, In (k, b) l -> In (k, b) (c_dict c).
Proof. exact items_spec. Qed.
Theorem C130_first : forall c, CWF c -> visible_ok c ->
  match c_vis c with
  | [] => first_block c = Ret None
  | k :: _ => exists b, In (k, b) (c_dict c) /\ first_block c = Ret (Some b)
  end.
Proof. exact first_spec. Qed.

(** Values of an item that is in three of the blocks, looped in one of them. *)
Definition tx (s : string) : value := VStr (u s).
Definition with_list (v : value) : block := fst (set_item (u "_V") v eb).
Definition survey_ops : list cop :=
  [KNew (u "Top") (blk "1") true None; KNew (u "Cat") (with_list (VList [tx "2"; tx "1"; tx "3"; tx "2"])) true (Some (u "top"));
   KNew (u "Item") (blk "3") true (Some (u "CAT")); KNew (u "Other") eb true None].
Definition survey (sc : scope) : coll := run_cops survey_ops (new_coll StdCif sc false).
Lemma survey_ok sc : CWF (survey sc) /\ visible_ok (survey sc).
Proof.
  assert (R : reachable_ops survey_ops (new_coll StdCif sc false)).
  { destruct sc; cbn [reachable_ops survey_ops]; (split; [|split; [|split; [|split; [|exact I]]]]; (split; [|vm_compute; intros X; discriminate X]);
      intros q E; try discriminate E; injection E as <-; known). }
  destruct (new_coll_CWF StdCif sc false) as [W0 V0]. exact (run_cops_ok survey_ops _ W0 V0 R).
Qed.
Definition reads (b : block) (k : str) : bool := negb (str_eqb k (u "saves")) && match get_item k b with Ret _ => true | Raise _ => false end.
Definition readable_b (c : coll) : bool := forallb (fun kb => forallb (reads (snd kb)) (b_keys (snd kb))) (c_dict c).
Lemma readable_check c : readable_b c = true -> readable c.
Proof.
  intros H k b n _ Hb Hn. unfold readable_b in H. rewrite forallb_forall in H. specialize (H _ Hb). cbn [snd] in H.
  rewrite forallb_forall in H. unfold has_key in Hn. apply (dmem_In str_eqb str_eqb_spec) in Hn. specialize (H (lower n) Hn).
  unfold reads in H. apply andb_true_iff in H. destruct H as [H1 H2].
  assert (get_item n b = get_item (lower n) b) as ->; [|destruct (get_item (lower n) b); [eauto|discriminate]].
  unfold get_item, get_full. rewrite lower_idem. destruct (str_eqb_spec n (u "saves")) as [->|_].
  - discriminate H1.
  - apply negb_true_iff in H1. rewrite H1. reflexivity.
Qed.
Lemma survey_readable sc : readable (survey sc).
Proof. apply readable_check. destruct sc; vm_compute; reflexivity. Qed.
(** The block with the key [k]. *)
Definition at_key (k : string) (c : coll) : block := match c_get (u k) c with Ret b => b | Raise _ => eb end.
Example C130_meets :
  CWF (survey Dictionary) /\ visible_ok (survey Dictionary) /\ readable (survey Dictionary) /\
  get_all (u "_v") (survey Dictionary) = Ret [tx "1"; tx "2"; tx "3"] /\
  get_all (u "_w") (survey Dictionary) = Ret [] /\
  (exists l, c_items (survey Instance) = Ret l /\ map fst l = [u "top"; u "other"]) /\
  (exists b, first_block (survey Instance) = Ret (Some b) /\ get_item (u "_v") b = Ret (tx "1")).
Proof.
  split; [exact (proj1 (survey_ok Dictionary))|]. split; [exact (proj2 (survey_ok Dictionary))|]. split; [exact (survey_readable Dictionary)|].
  split; [vm_compute; reflexivity|]. split; [vm_compute; reflexivity|].
  split.
  - destruct (items_spec (survey Instance) (proj1 (survey_ok Instance)) (proj2 (survey_ok Instance))) as (l & E & Hm & _).
    exists l. split; [exact E|]. rewrite Hm. vm_compute. reflexivity.
  - exists (at_key "top" (survey Instance)). split; vm_compute; reflexivity.
Qed.

(** Values in save frames are not collected while frames are hidden. *)
Theorem C130_hidden_refuted : exists c k b, CWF c /\ visible_ok c /\ In (k, b) (c_dict c) /\
  get_item (u "_v") b = Ret (tx "3") /\ get_all (u "_v") c = Ret [tx "1"].
Proof.
  exists (survey Instance), (u "item"), (at_key "item" (survey Instance)). split; [exact (proj1 (survey_ok Instance))|]. split; [exact (proj2 (survey_ok Instance))|].
  split; [vm_compute; right; right; left; reflexivity|]. split; vm_compute; reflexivity.
Qed.

(** A value that is itself a list is not among the values: its members are, as if
    the item were looped. *)
Theorem C130_list_refuted : exists c k b v, CWF c /\ visible_ok c /\ In (k, b) (c_dict c) /\ In k (c_vis c) /\
  get_item (u "_v") b = Ret v /\ v = VSL [tx "1"; tx "2"] /\ get_all (u "_v") c = Ret [tx "1"; tx "2"].
Proof.
  set (ops := [KNew (u "a") (with_list (VSL [tx "1"; tx "2"])) true None]).
  exists (run_cops ops (new_coll StdCif Instance false)), (u "a"), (at_key "a" (run_cops ops (new_coll StdCif Instance false))), (VSL [tx "1"; tx "2"]).
  assert (R : reachable_ops ops (new_coll StdCif Instance false)).
  { cbn [reachable_ops ops]. split; [|exact I]. split; [intros q E; discriminate E|vm_compute; intros X; discriminate X]. }
  destruct (new_coll_CWF StdCif Instance false) as [W0 V0]. destruct (run_cops_ok ops _ W0 V0 R) as [W V].
  split; [exact W|]. split; [exact V|]. split; [vm_compute; left; reflexivity|]. split; [vm_compute; now left|].
  split; [vm_compute; reflexivity|]. split; [reflexivity|vm_compute; reflexivity].
Qed.

(** Lengths of names: an error exactly if one is too long. *)
Theorem C130_block_names : forall m c,
  checklengths m c = Raise StarErr /\ (exists k p, In (k, p) (c_child c) /\ (m < Z.of_nat (length (pc_id p)))%Z)
  \/ checklengths m c = Ret tt /\ forall k p, In (k, p) (c_child c) -> (Z.of_nat (length (pc_id p)) <= m)%Z.
Proof. exact checklengths_spec. Qed.
Theorem C130_item_names : forall m b,
  checknamelengths b m = Raise StarErr /\ (0 <= m)%Z /\ (exists k, In k (b_keys b) /\ (m < Z.of_nat (length k))%Z)
  \/ checknamelengths b m = Ret tt /\ ((m < 0)%Z \/ forall k, In k (b_keys b) -> (Z.of_nat (length k) <= m)%Z).
Proof. exact checknames_spec. Qed.
Example C130_lengths : checklengths 4 (survey Instance) = Raise StarErr /\ checklengths 5 (survey Instance) = Ret tt
  /\ checknamelengths (blk "1") 1 = Raise StarErr /\ checknamelengths (blk "1") 2 = Ret tt /\ checknamelengths (blk "1") (-1) = Ret tt.
Proof. repeat split; vm_compute; reflexivity. Qed.

(** Checking a dictionary against one in DDL2 that has links never gets as far as
    the checks, whatever is in the two. *)
Theorem C130_parents_fail : forall p r c, exists e, before_checks (p :: r) c = Raise e.
Proof. exact parents_fail. Qed.
(** The values that were collected for a parent item can not be stored: they would
    have to be a block of the file. *)
Theorem C130_parents_refuted : exists parents c vs, parents <> [] /\ get_all (hd [] parents) (set_scope Dictionary c) = Ret vs /\ vs <> [] /\
  before_checks parents c = Raise AttributeErr.
Proof.
  exists [u "_v"], (survey Instance). eexists. split; [discriminate|]. split; [vm_compute; reflexivity|]. split; [vm_compute; discriminate|vm_compute; reflexivity].
Qed.

Definition survey_theorems := (C130_get_all, C130_items, C130_first, C130_hidden_refuted, C130_list_refuted, C130_block_names,
  C130_item_names, C130_parents_fail, C130_parents_refuted).
Print Assumptions survey_theorems.
