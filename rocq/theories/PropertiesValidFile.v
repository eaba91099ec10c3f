(** C115: files whose blocks are checked against a dictionary. *)
From Coq Require Import String Ascii List NArith ZArith Bool.
From Verif Require Import PyBase PyFacts StarBlockModel StarBlockSpec ValidateModel ValidBlockModel ValidBlockSpec PropertiesValidate PropertiesValidBlock CollectionModel CollectionSpec CollectionProofs CollectionProofs3
  ValidFileModel ValidFileSpec ValidFileProofs ValidFileProofs2.
Import ListNotations.
Open Scope nat_scope.

(** The constructor accepts exactly the files whose visible blocks all pass, and keeps
    names, places and contents. *)
Theorem C115_init_exact d c : CWF c -> visible_ok c -> file_named c ->
  (file_ok d c /\ exists c', valid_file d c = Ret c' /\ CWF c' /\ same_blocks c c' /\ file_ok d c') \/ (~ file_ok d c /\ exists e, valid_file d c = Raise e).
Proof. exact (valid_file_exact d c). Qed.
(** A block with a new name in lower case is added as to any other file; the call
    succeeds exactly if the block passes, but the block is there in either case. *)
Theorem C115_new_block d c name b f p : CWF c -> visible_ok c -> c_std c <> StdNone -> (forall q, p = Some q -> In (lower q) (ckeys c)) ->
  lower (fix_name f name) = name -> ~ In name (ckeys c) -> loops_named b ->
  (refuses c name b name p /\ valid_new_block d name b f p c = (c, Raise StarErr))
  \/ (~ refuses c name b name p /\ exists c', CWF c' /\ visible_ok c' /\ (exists b', c_get name c' = Ret b' /\ same_block b b')
      /\ entry_of c' name = Some (PC (fix_name f name) (option_map lower p)) /\ (forall x v, c_get x c = Ret v -> c_get x c' = Ret v) /\ c_order c' = c_order c ++ [name]
      /\ length (ckeys c') = Datatypes.S (length (ckeys c))
      /\ ((block_ok d b /\ valid_new_block d name b f p c = (c', Ret tt)) \/ (~ block_ok d b /\ exists e, valid_new_block d name b f p c = (c', Raise e)))).
Proof. exact (new_valid d c name b f p). Qed.
(** Data blocks that are added successfully leave a file of valid blocks. *)
Theorem C115_stays_valid d c name b f c' : CWF c -> visible_ok c -> c_std c <> StdNone -> lower (fix_name f name) = name -> ~ In name (ckeys c) -> loops_named b ->
  file_ok d c -> valid_new_block d name b f None c = (c', Ret tt) -> file_ok d c'.
Proof. exact (all_valid d c name b f c'). Qed.
(** A name with capitals always ends in a KeyError, after the block was stored without
    any check. *)
Theorem C115_capitals_fails d c name b f p : CWF c -> visible_ok c -> c_std c <> StdNone -> (forall q, p = Some q -> In (lower q) (ckeys c)) -> lower name <> name ->
  ~ refuses c name b (lower (fix_name f name)) p ->
  exists c' r, valid_new_block d name b f p c = (c', Raise KeyErr) /\ CWF c' /\ c_get r c' = Ret (CollectionSpec.stored c b).
Proof. exact (new_capitals d c name b f p). Qed.

(** ** Examples *)
Definition good_b : block := run_vops (vd enum_d) [VSet (u "_c.x") (L ["a"; "b"])] PropertiesValidBlock.new_block.
Definition bad_b : block := fst (add_item (u "_c.x") (L ["a"; "q"]) false PropertiesValidBlock.new_block).
Definition file_with (os : list cop) : coll := run_cops os (new_coll StdCif Instance false).
Lemma file_with_ok os : reachable_ops os (new_coll StdCif Instance false) -> CWF (file_with os) /\ visible_ok (file_with os).
Proof. intros R. destruct (new_coll_CWF StdCif Instance false) as [W0 V0]. exact (run_cops_ok os _ W0 V0 R). Qed.
Definition two_blocks : list cop := [KNew (u "A") good_b true None; KNew (u "b") good_b true None].
Example C115_meets : exists c c', c = file_with two_blocks /\ CWF c /\ visible_ok c /\ file_named c /\ file_ok (vd enum_d) c /\ valid_file (vd enum_d) c = Ret c'
  /\ c_std c' <> StdNone /\ ~ In (u "d") (ckeys c') /\ loops_named good_b /\ length (ckeys c') = 2
  /\ snd (valid_new_block (vd enum_d) (u "d") good_b true None c') = Ret tt /\ snd (valid_new_block (vd enum_d) (u "d") bad_b true None c') = Raise CifErr.
Proof.
  assert (R : reachable_ops two_blocks (new_coll StdCif Instance false)).
  { split; [|split; [|exact I]]; (split; [discriminate|vm_compute; discriminate]). }
  destruct (file_with_ok two_blocks R) as [W V].
  assert (file_named (file_with two_blocks)) as N.
  { intros k b H. apply (c_get_spec _ _ _ W) in H. apply (in_map snd) in H. assert (forallb (fun b => forallb (fun kl => match snd kl with [] => false | _ => true end) (b_loops b)) (map snd (c_dict (file_with two_blocks))) = true) as F by (vm_compute; reflexivity).
    rewrite forallb_forall in F. specialize (F b H). rewrite forallb_forall in F. apply Forall_forall. intros kl Hk. specialize (F kl Hk). destruct (snd kl); [discriminate F|discriminate]. }
  assert (exists c', valid_file (vd enum_d) (file_with two_blocks) = Ret c' /\ ckeys c' = [u "a"; u "b"] /\ c_std c' = StdCif
    /\ snd (valid_new_block (vd enum_d) (u "d") good_b true None c') = Ret tt /\ snd (valid_new_block (vd enum_d) (u "d") bad_b true None c') = Raise CifErr) as (c' & E & Ek & Es & E1 & E2).
  { exists (match valid_file (vd enum_d) (file_with two_blocks) with Ret c => c | Raise _ => new_coll StdCif Instance false end). split; [vm_compute; reflexivity|]. split; [vm_compute; reflexivity|]. split; [vm_compute; reflexivity|]. split; vm_compute; reflexivity. }
  exists (file_with two_blocks), c'. split; [reflexivity|]. split; [exact W|]. split; [exact V|]. split; [exact N|]. split.
  { destruct (C115_init_exact (vd enum_d) _ W V N) as [(Ok & _)|(_ & e & F)]; [exact Ok|rewrite E in F; discriminate F]. }
  split; [exact E|]. rewrite Ek, Es. split; [discriminate|]. split; [intros [H|[H|[]]]; discriminate H|]. split; [vm_compute; constructor|]. split; [reflexivity|]. now split.
Qed.
Example C115_meets_capitals : exists c name, CWF c /\ visible_ok c /\ c_std c <> StdNone /\ lower name <> name /\ ~ refuses c name good_b (lower (fix_name true name)) None.
Proof.
  exists (new_coll StdCif Instance false), (u "Block"). destruct (new_coll_CWF StdCif Instance false) as [W V]. split; [exact W|]. split; [exact V|]. split; [discriminate|]. split; [vm_compute; discriminate|].
  intros [(_ & x & H1 & H2)|[H|[(_ & i & [])|(H & _)]]].
  - assert (forallb (fun x => Nat.leb (length x) 75) (b_keys good_b) = true) as F by (vm_compute; reflexivity). rewrite forallb_forall in F. apply F in H1. apply PeanoNat.Nat.leb_le in H1. apply (PeanoNat.Nat.lt_irrefl 75). now apply (PeanoNat.Nat.lt_le_trans _ (length x)).
  - cbn in H. apply PeanoNat.Nat.ltb_lt in H. discriminate H.
  - now apply H.
Qed.

(** Save frames are not checked: a file with a frame that fails is accepted. *)
Theorem C115_frames_refuted : exists d c c' b, valid_file d c = Ret c' /\ c_get (u "f") c' = Ret b /\ valid_init d b = Raise CifErr
  /\ entry_of c' (u "f") = Some (PC (u "f") (Some (u "a"))).
Proof.
  exists (vd enum_d), (file_with [KNew (u "a") good_b true None; KNew (u "f") bad_b true (Some (u "a"))]). eexists _, _.
  split; [vm_compute; reflexivity|]. split; [vm_compute; reflexivity|]. split; vm_compute; reflexivity.
Qed.
(** A block that NewBlock refuses stays in the file. *)
Theorem C115_refused_stays_refuted : exists d c name b c', valid_new_block d name b true None c = (c', Raise CifErr) /\ In name (c_keys c') /\ ~ In name (c_keys c)
  /\ exists b', c_get name c' = Ret b' /\ valid_init d b' = Raise CifErr.
Proof.
  exists (vd enum_d), (file_with two_blocks), (u "d"), bad_b. eexists. split; [vm_compute; reflexivity|]. split; [vm_compute; tauto|]. split; [vm_compute; intuition discriminate|].
  eexists. split; [vm_compute; reflexivity|vm_compute; reflexivity].
Qed.
(** A valid block whose name has capitals cannot be added: the call ends in a KeyError, and the block is
    stored as a block that does no checks. *)
Theorem C115_capitals_refuted : exists d c name b c', valid_init d b = Ret b /\ valid_new_block d name b true None c = (c', Raise KeyErr) /\ c_get name c' = Ret (CollectionSpec.stored c b).
Proof.
  exists (vd enum_d), (file_with two_blocks), (u "Dd"), good_b. eexists. split; [vm_compute; reflexivity|]. split; [vm_compute; reflexivity|]. vm_compute. reflexivity.
Qed.

Definition validfile_theorems := (C115_init_exact, C115_new_block, C115_stays_valid, C115_capitals_fails, C115_frames_refuted, C115_refused_stays_refuted, C115_capitals_refuted).
Print Assumptions validfile_theorems.
