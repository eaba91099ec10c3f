(** C135: putting the blocks of one collection in another; get and copy. *)
From Coq Require Import String Ascii List NArith ZArith PeanoNat Bool Permutation Lia.
From Verif Require Import PyBase PyFacts StarBlockModel ScanModel CollectionModel CollectionSpec CollectionProofs CollectionProofs2 CollectionProofs3 CollectionProofs4 PropertiesCollection UpdateModel UpdateSpec UpdateProofs.
Import ListNotations.
Open Scope nat_scope.

(** get gives the block of a visible key, whatever its case, and otherwise the default; it
    never fails. *)
Theorem C135_get : forall key d c, CWF c -> visible_ok c ->
  (In (lower key) (c_keys c) -> exists b, In (lower key, b) (c_dict c) /\ get_or key d c = Ret (Some b)) /\
  (~ In (lower key) (c_keys c) -> get_or key d c = Ret d).
Proof.
  intros key d c W V. unfold get_or. split; intros H.
  - assert (M : c_has key c = true) by (now apply smem_In). rewrite M.
    assert (K : In (lower key) (ckeys c)).
    { unfold visible_ok in V. destruct (c_scope c).
      - destruct V as [_ V]. apply V in H. destruct H as (i & I). apply (Permutation_in _ (cw_table _ W)). apply (in_map fst) in I. exact I.
      - exact (Permutation_in _ V H). }
    apply in_map_iff in K. destruct K as ([x b] & E & I). cbn [fst] in E. subst x. exists b. split; [exact I|].
    apply (c_get_spec _ _ _ W) in I. rewrite I. reflexivity.
  - assert (M : c_has key c = false) by (now apply smem_false). rewrite M. reflexivity.
Qed.

(** New names: every block is at the top, under its name, after those that were there, which
    are as before. *)
Theorem C135_update : forall l c, CWF c -> visible_ok c -> Forall (takes (c_std c)) l ->
  NoDup (map (fun x => key_of (fst x)) l) -> (forall x, In x l -> ~ In (key_of (fst x)) (ckeys c)) ->
  exists c', update_pairs l c = (c', Ret tt) /\ CWF c' /\ visible_ok c' /\ extended c l c'.
Proof. exact update_ok. Qed.

(** At the first name that is there already or block that is not taken it stops with an error; those before
    it stay. *)
Theorem C135_stops : forall l1 n b l2 c, CWF c -> visible_ok c -> c_std c <> StdNone -> Forall (takes (c_std c)) l1 ->
  NoDup (map (fun x => key_of (fst x)) l1) -> (forall x, In x l1 -> ~ In (key_of (fst x)) (ckeys c)) ->
  ~ takes (c_std c) (n, b) \/ root c (key_of n) ->
  exists c', update_pairs (l1 ++ (n, b) :: l2) c = (c', Raise StarErr) /\ CWF c' /\ visible_ok c' /\ extended c l1 c'.
Proof.
  intros l1 n b l2 c W V S T ND NI H. destruct (update_ok l1 c W V T ND NI) as (c' & E & W' & V' & X). exists c'.
  split; [|split; [exact W'|split; [exact V'|exact X]]]. rewrite (update_app _ _ _ _ E). cbn [update_pairs].
  destruct X as (_ & _ & X3 & _ & _ & X6 & _). rewrite put_refused; [reflexivity|exact W'|exact V'|congruence|].
  rewrite X6. destruct H as [H | (i & I)]; [now left|right].
  assert (En : entry_of c (key_of n) = Some (PC i None)).
  { unfold entry_of. apply (dget_In_NoDup str_eqb str_eqb_spec); [now apply table_NoDup|exact I]. }
  apply X3 in En. unfold entry_of in En. apply (dget_In str_eqb str_eqb_spec) in En. exists i. exact En.
Qed.

(** Without a standard, assigning to a name that is there deletes the block of that name, with the frames
    in it, and puts the new one at the end. *)
Theorem C135_replaces : forall n b c, CWF c -> visible_ok c -> c_std c = StdNone -> length n <= 75 -> In (key_of n) (c_vis c) ->
  (forall x, below c (key_of n) x -> In x (c_vis c)) -> In (key_of n) (ckeys c) ->
  exists c1 c', c_del (key_of n) c = (c1, Ret tt) /\ ~ In (key_of n) (ckeys c1) /\ c_put n b c = (c', Ret (key_of n)) /\ CWF c' /\ visible_ok c' /\ extended c1 [(n, b)] c'.
Proof. exact put_replaces. Qed.

(** Another collection, all of whose keys are new and without spaces: its visible blocks are put at
    the top. *)
Theorem C135_collection : forall n c, CWF n -> visible_ok n -> CWF c -> visible_ok c ->
  (forall k b, In (k, b) (c_dict n) -> takes (c_std c) (k, b) /\ underlined k = k /\ ~ In k (ckeys c)) ->
  exists c' l, c_update n c = (c', Ret tt) /\ CWF c' /\ visible_ok c' /\ map fst l = c_keys n /\
    (forall x, In x l -> In x (c_dict n)) /\ extended c l c'.
Proof.
  intros n c Wn Vn W V H.
  assert (K : NoDup (c_keys n) /\ forall k, In k (c_keys n) -> In k (ckeys n)).
  { unfold visible_ok in Vn. unfold c_keys. destruct (c_scope n).
    - destruct Vn as [N1 Vn]. split; [exact N1|]. intros k I. apply Vn in I. destruct I as (i & I). apply (Permutation_in _ (cw_table _ Wn)). apply (in_map fst) in I. exact I.
    - split; [apply (Permutation_NoDup (Permutation_sym Vn)), cw_keys, Wn|]. intros k I. exact (Permutation_in _ Vn I). }
  destruct K as [ND K].
  assert (L : exists l, Forall2 (fun k x => fst x = k /\ c_get k n = Ret (snd x)) (c_keys n) l /\ map fst l = c_keys n /\ forall x, In x l -> In x (c_dict n)).
  { clear ND. revert K. induction (c_keys n) as [|k ks IH]; intros K.
    - exists []. split; [constructor|]. split; [reflexivity|intros x []].
    - destruct IH as (l & F & M & I); [intros x J; apply K; now right|].
      assert (J := K k (or_introl eq_refl)). assert (Lk := cw_low _ Wn k J). apply in_map_iff in J. destruct J as ([x b] & E & J). cbn [fst] in E. subst x.
      exists ((k, b) :: l). split; [|split].
      + constructor; [|exact F]. split; [reflexivity|]. apply c_get_spec; [exact Wn|]. rewrite Lk. exact J.
      + cbn [map fst]. now rewrite M.
      + intros x [<- | Y]; [exact J|now apply I]. }
  destruct L as (l & F & M & I).
  assert (KO : forall x, In x l -> key_of (fst x) = fst x).
  { intros [k b] J. destruct (H k b (I _ J)) as (_ & U & _). cbn [fst]. change (key_of k) with (lower (underlined k)). rewrite U.
    apply (cw_low _ Wn). specialize (I _ J). apply (in_map fst) in I. exact I. }
  destruct (update_ok l c W V) as (c' & E & W' & V' & X).
  - apply Forall_forall. intros [k b] J. exact (proj1 (H k b (I _ J))).
  - assert (Em : map (fun x => key_of (fst x)) l = map fst l) by (apply map_ext_in; exact KO). rewrite Em, M. exact ND.
  - intros [k b] J. rewrite KO by exact J. exact (proj2 (proj2 (H k b (I _ J)))).
  - exists c', l. unfold c_update. rewrite (keys_pairs n _ l c F). split; [exact E|]. split; [exact W'|]. split; [exact V'|]. split; [exact M|]. split; [exact I|exact X].
Qed.

(** Two data blocks to be put in the collection [nested]. *)
Definition pairs2 : list (str * block) := [(u "New One", blk "5"); (u "more", blk "6")].
Example C135_meets : forall sc, CWF (nested sc) /\ visible_ok (nested sc) /\ c_std (nested sc) <> StdNone /\ Forall (takes StdCif) pairs2 /\
  NoDup (map (fun x => key_of (fst x)) pairs2) /\ (forall x, In x pairs2 -> ~ In (key_of (fst x)) (ckeys (nested sc))) /\
  root (nested sc) (key_of (u "OTHER")) /\ map (fun x => key_of (fst x)) pairs2 = [u "new_one"; u "more"].
Proof.
  intros sc. split; [exact (proj1 (nested_ok _))|]. split; [exact (proj2 (nested_ok _))|]. split; [destruct sc; vm_compute; discriminate|]. split.
  { apply Forall_forall. intros x [<- | [<- | []]]; (split; [apply Nat.leb_le; vm_compute; reflexivity|]); intros _ m [<- | []]; apply Nat.leb_le; vm_compute; reflexivity. }
  split; [repeat constructor; vm_compute; intuition discriminate|]. split.
  { intros x [<- | [<- | []]]; destruct sc; apply smem_false; vm_compute; reflexivity. }
  split; [|vm_compute; reflexivity]. exists (u "Other"). destruct sc; vm_compute; tauto.
Qed.

(** A collection without a standard that has the block which is assigned to. *)
Definition loose : coll := run_cops [KNew (u "Top") (blk "1") true None; KNew (u "Other") (blk "4") true None] (new_coll StdNone Instance false).
Example C135_replaces_meets : CWF loose /\ visible_ok loose /\ c_std loose = StdNone /\ In (key_of (u "TOP")) (c_vis loose) /\ In (key_of (u "TOP")) (ckeys loose) /\
  (forall x, below loose (key_of (u "TOP")) x -> In x (c_vis loose)) /\ c_order (fst (c_put (u "TOP") (blk "9") loose)) = [u "other"; u "top"].
Proof.
  assert (A : CWF loose /\ visible_ok loose).
  { destruct (new_coll_CWF StdNone Instance false) as [W0 V0]. apply (run_cops_ok _ _ W0 V0). cbn [reachable_ops].
    split; [split; [intros q X; discriminate X|intros _ X; exfalso; revert X; apply smem_false; vm_compute; reflexivity]|].
    split; [split; [intros q X; discriminate X|intros _ X; exfalso; revert X; apply smem_false; vm_compute; reflexivity]|exact I]. }
  split; [exact (proj1 A)|]. split; [exact (proj2 A)|]. split; [vm_compute; reflexivity|]. split; [known|]. split; [known|]. split; [|vm_compute; reflexivity].
  intros x H. exfalso. induction H as [x (i & J) | x y _ IH _]; [|exact IH]. vm_compute in J. intuition discriminate.
Qed.

(** Save frames can be had by their names but not by get, with the scoping of data files. *)
Theorem C135_get_refuted : exists c key b, CWF c /\ visible_ok c /\ c_get key c = Ret b /\ get_or key None c = Ret None.
Proof. exists (nested Instance), (u "Cat"). eexists. split; [exact (proj1 (nested_ok _))|]. split; [exact (proj2 (nested_ok _))|]. split; vm_compute; reflexivity. Qed.

Definition fresh_file : coll := new_coll StdCif Instance false.
(** The names in the other collection lose their capitals. *)
Theorem C135_names_refuted : exists n c', CWF n /\ entry_of n (u "top") = Some (PC (u "Top") None) /\ c_update n fresh_file = (c', Ret tt) /\ entry_of c' (u "top") = Some (PC (u "top") None).
Proof. exists (nested Instance). eexists. split; [exact (proj1 (nested_ok _))|]. split; [vm_compute; reflexivity|]. split; vm_compute; reflexivity. Qed.
(** Save frames are lost with the scoping of data files, and become data blocks with that of
    dictionaries. *)
Theorem C135_frames_refuted : exists n1 n2 c1 c2, CWF n1 /\ inside n1 (u "top") (u "cat") /\ c_update n1 fresh_file = (c1, Ret tt) /\ c_get (u "cat") c1 = Raise KeyErr /\
  CWF n2 /\ inside n2 (u "top") (u "cat") /\ c_update n2 fresh_file = (c2, Ret tt) /\ root c2 (u "cat").
Proof.
  exists (nested Instance), (nested Dictionary). eexists _, _. split; [exact (proj1 (nested_ok _))|]. split; [exists (u "Cat"); vm_compute; tauto|]. split; [vm_compute; reflexivity|].
  split; [vm_compute; reflexivity|]. split; [exact (proj1 (nested_ok _))|]. split; [exists (u "Cat"); vm_compute; tauto|]. split; [vm_compute; reflexivity|].
  exists (u "cat"). vm_compute. tauto.
Qed.
(** Unlike that of a python dictionary, update does not replace blocks: a name that is there is an error, after
    which some blocks have been added. *)
Theorem C135_replace_refuted : exists l c c' b, CWF c /\ c = nested Instance /\ l = pairs2 ++ [(u "other", blk "7")] /\ update_pairs l c = (c', Raise StarErr) /\
  c_get (u "more") c' = Ret b /\ c_get (u "more") c = Raise KeyErr /\ c_get (u "other") c' = c_get (u "other") c.
Proof.
  eexists _, (nested Instance), _, _. split; [exact (proj1 (nested_ok _))|]. split; [reflexivity|]. split; [reflexivity|]. split; [vm_compute; reflexivity|].
  split; [vm_compute; reflexivity|]. split; vm_compute; reflexivity.
Qed.
(** No collection can be copied, whatever its blocks are; not even an empty one. *)
Theorem C135_copy_refuted : (exists c, CWF c /\ c_dict c = [] /\ forall cif, c_copy cif c = Raise AttributeErr) /\ forall cif c c', c_copy cif c <> Ret c'.
Proof.
  split; [|exact copy_fails]. exists fresh_file. split; [apply new_coll_CWF|]. split; [reflexivity|]. intros [|]; vm_compute; reflexivity.
Qed.

Definition update_theorems := (C135_get, C135_update, C135_stops, C135_replaces, C135_collection, C135_get_refuted, C135_names_refuted, C135_frames_refuted, C135_replace_refuted, C135_copy_refuted).
Print Assumptions update_theorems.
