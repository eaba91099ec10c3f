(** C117: validating a file with save frames. *)
From Coq Require Import String Ascii List NArith ZArith Bool Permutation.
From Verif Require Import PyBase PyFacts StarBlockModel StarBlockSpec ValidateModel ValidBlockModel ValidBlockSpec ReportModel ReportSpec ReportProofs PropertiesValidate PropertiesValidBlock PropertiesReport
  CollectionModel CollectionSpec CollectionProofs CollectionProofs2 CollectionProofs3 FrameCheckModel FrameCheckSpec FrameCheckProofs PropertiesValidFile.
Import ListNotations.
Open Scope nat_scope.

(** A dictionary: every data block and save frame is checked, once. *)
Theorem C117_dictionary d c c' vr nm : CWF c -> sound_blocks c -> validate_coll true d c = (c', Ret (vr, nm)) ->
  exists keys, Permutation keys (ckeys c) /\ checked d keys c c' vr nm /\ CWF c'.
Proof.
  intros W S H. unfold validate_coll in H. destruct (c_keys (set_scope Instance c)) as [|x l]; [discriminate H|].
  set (c2 := set_scope Dictionary (set_scope Instance c)) in *. assert (CWF c2) as W2 by now apply scope_CWF, scope_CWF.
  assert (Permutation (c_keys c2) (ckeys c)) as P by exact (cw_set _ W).
  destruct (check_keys_ret d (c_keys c2) c2 c' vr nm W2) as (W' & V & Sc & [R1 R2 R3 R4 R5]); auto.
  - eapply Permutation_NoDup; [symmetry; exact P|apply (cw_keys _ W)].
  - intros k Hk. eapply Permutation_in; [exact P|exact Hk].
  - exists (c_keys c2). split; [exact P|]. split; [|exact W']. constructor; [exact R1|exact R2|exact R3|exact R4|exact R5].
Qed.
(** A data file: every block that keys() lists is checked, once; save frames are not. *)
Theorem C117_data_file d c c' vr nm : CWF c -> visible_ok c -> sound_blocks c -> validate_coll false d c = (c', Ret (vr, nm)) ->
  checked d (c_keys c) c c' vr nm /\ CWF c' /\ c_keys c' = c_keys c /\ (c_scope c = Instance -> forall k, In k (c_keys c) <-> root c k).
Proof.
  intros W V S H. unfold validate_coll in H.
  assert (NoDup (c_keys c) /\ forall k, In k (c_keys c) -> In k (ckeys c)) as [N K].
  { unfold visible_ok in V. destruct (c_scope c).
    - destruct V as [V1 V2]. split; [exact V1|]. intros k Hk. apply (root_key c k W). now apply V2.
    - split; [eapply Permutation_NoDup; [symmetry; exact V|apply (cw_keys _ W)]|]. intros k Hk. eapply Permutation_in; [exact V|exact Hk]. }
  destruct (check_keys_ret d (c_keys c) c c' vr nm W S N K H) as (W' & V' & _ & R). split; [exact R|]. split; [exact W'|]. split; [exact V'|].
  intros E. unfold visible_ok in V. rewrite E in V. apply V.
Qed.
(** Only a check that fails to finish, or a dictionary without data blocks, ends in an error. *)
Theorem C117_fails isdic d c c' e : CWF c -> visible_ok c -> sound_blocks c -> validate_coll isdic d c = (c', Raise e) ->
  (isdic = true /\ e = IndexErr /\ ~ exists k, root c k) \/ exists k b b', c_get k c = Ret b /\ only_known d b b' /\ block_checks d b' = Raise e.
Proof.
  intros W V S H. unfold validate_coll in H. destruct isdic.
  - destruct (c_keys (set_scope Instance c)) as [|x l] eqn:E.
    + injection H as _ <-. left. split; [reflexivity|]. split; [reflexivity|]. intros (k & R). assert (In k (c_keys (set_scope Instance c))) as X by now apply in_with_parent. rewrite E in X. destruct X.
    + right. set (c2 := set_scope Dictionary (set_scope Instance c)) in *. assert (CWF c2) as W2 by now apply scope_CWF, scope_CWF.
      assert (Permutation (c_keys c2) (ckeys c)) as P by exact (cw_set _ W).
      destruct (check_keys_raise d (c_keys c2) c2 c' e W2) as (k & b & b' & A & B & C & D); auto.
      * eapply Permutation_NoDup; [symmetry; exact P|apply (cw_keys _ W)].
      * intros k Hk. eapply Permutation_in; [exact P|exact Hk].
      * exists k, b, b'. split; [exact B|]. now split.
  - right. assert (NoDup (c_keys c) /\ forall k, In k (c_keys c) -> In k (ckeys c)) as [N K].
    { unfold visible_ok in V. destruct (c_scope c).
      - destruct V as [V1 V2]. split; [exact V1|]. intros k Hk. apply (root_key c k W). now apply V2.
      - split; [eapply Permutation_NoDup; [symmetry; exact V|apply (cw_keys _ W)]|]. intros k Hk. eapply Permutation_in; [exact V|exact Hk]. }
    destruct (check_keys_raise d (c_keys c) c c' e W S N K H) as (k & b & b' & A & B & C & D). exists k, b, b'. split; [exact B|]. now split.
Qed.

(** ** Examples: a data block with a good item, and a frame with a bad one. *)
Definition framed : list cop := [KNew (u "Top") data1 true None; KNew (u "f") data2 true (Some (u "Top"))].
Definition framed_file : coll := file_with framed.
Lemma framed_ok : CWF framed_file /\ visible_ok framed_file /\ sound_blocks framed_file.
Proof.
  assert (R : reachable_ops framed (new_coll StdCif Instance false)).
  { cbn [reachable_ops framed]. split; [|split; [|exact I]]; (split; [|vm_compute; intros X; discriminate X]); intros q E; try discriminate E. injection E as <-. vm_compute. tauto. }
  destruct (file_with_ok framed R) as [W0 V0]. assert (CWF framed_file) as W by exact W0. assert (visible_ok framed_file) as V by exact V0. split; [exact W|]. split; [exact V|]. intros k b H. pose proof (proj1 (c_get_spec framed_file k b W) H) as H1. apply (in_map snd) in H1. cbn [snd] in H1.
  assert (map snd (c_dict framed_file) = [set_characterset false (fst (setmaxnamelength 75 data1)); set_characterset false (fst (setmaxnamelength 75 data2))]) as E by (vm_compute; reflexivity). rewrite E in H1.
  assert (forall x, WF x /\ no_empty_loop x -> WF (set_characterset false (fst (setmaxnamelength 75 x))) /\ no_empty_loop (set_characterset false (fst (setmaxnamelength 75 x)))) as Hs.
  { intros x [Wx Nx]. unfold setmaxnamelength. destruct x as [bd bl bo bt bv bm bu]. destruct (_ && _)%bool; cbn [fst]; (split; [eapply StarBlockProofs2.wf_settings; exact Wx|exact Nx]). }
  pose proof one_file_ok as F. inversion F as [|? ? F1 F2]; subst. inversion F2 as [|? ? F3 _]; subst. destruct H1 as [H1|[H1|[]]]; rewrite <- H1; apply Hs; [exact F1|exact F3].
Qed.
Example C117_meets : CWF framed_file /\ visible_ok framed_file /\ sound_blocks framed_file
  /\ (exists c' vr nm, validate_coll true (vd enum_d) framed_file = (c', Ret (vr, nm)) /\ map (fun x => (fst x, fst (snd x))) vr = [(u "top", true); (u "f", false)] /\ nm = [(u "top", [u "_other"]); (u "f", [u "_l1"])])
  /\ exists c' vr nm, validate_coll false (vd enum_d) framed_file = (c', Ret (vr, nm)) /\ map (fun x => (fst x, fst (snd x))) vr = [(u "top", true)].
Proof.
  destruct framed_ok as (W & V & S). split; [exact W|]. split; [exact V|]. split; [exact S|]. split.
  - eexists _, _, _. split; [vm_compute; reflexivity|]. split; [vm_compute; reflexivity|vm_compute; reflexivity].
  - eexists _, _, _. split; [vm_compute; reflexivity|]. vm_compute. reflexivity.
Qed.
(** Validating a dictionary changes what its keys are: the frames stay visible. *)
Theorem C117_visible_refuted : exists d c c' r, CWF c /\ visible_ok c /\ validate_coll true d c = (c', Ret r) /\ c_keys c = [u "top"] /\ c_keys c' = [u "top"; u "f"].
Proof.
  exists (vd enum_d), framed_file. eexists _, _. destruct framed_ok as (W & V & S). split; [exact W|]. split; [exact V|]. split; [vm_compute; reflexivity|]. split; vm_compute; reflexivity.
Qed.
(** A dictionary without data blocks ends in an IndexError; a data file without blocks is valid. *)
Theorem C117_empty_refuted : exists d c, CWF c /\ validate_coll true d c = (c, Raise IndexErr) /\ validate_coll false d c = (c, Ret ([], [])).
Proof. exists (vd enum_d), (new_coll StdCif Instance false). split; [exact (proj1 (new_coll_CWF StdCif Instance false))|]. split; reflexivity. Qed.

Definition framecheck_theorems := (C117_dictionary, C117_data_file, C117_fails, C117_visible_refuted, C117_empty_refuted).
Print Assumptions framecheck_theorems.
