(** C133: attributes of packets that are calculated when asked for. *)
From Coq Require Import String Ascii List NArith ZArith PeanoNat Bool Lia.
From Verif Require Import PyBase PyFacts StarBlockModel StarBlockSpec StarBlockProofs StarBlockProofs2 PropertiesBlock LoopModel LoopSpec LoopProofs LoopProofs2 ValidateModel TreeModel KeyModel SemanticModel SemanticSpec SemanticProofs SemanticProofs2 PropertiesSemantic AttrModel AttrSpec AttrProofs.
Import ListNotations.
Open Scope string_scope.
Open Scope list_scope.

(** A value that the packet has is given, in whatever case its name is written, and
    nothing is calculated. *)
Theorem C133_present : forall n repr derive p name b v, att p name v -> read_attr n repr derive p name b = Ret (v, b).
Proof. exact read_present. Qed.

(** Otherwise the item is calculated for the whole block, and the value of the row
    with the keys of the packet is given.  If there is not exactly one such row, that is
    a ValueError; if the item is not in the loop of the keys, an AttributeError. *)
Theorem C133_derived : forall n repr derive p name b b1 names rows kvs,
  dget str_eqb (lower name) (s_atts p) = None -> derive name b = Ret b1 -> WF b1 -> is_table b1 names rows ->
  s_key p <> [] -> NoDup (s_key p) -> Forall2 (fun k v => att p k v) (s_key p) kvs ->
  (forall k, In k (s_key p) -> In (lower k) names) ->
  (forall i v, only (row_of_packet repr p b1) i -> cell b1 (lower name) i v -> In (lower name) names ->
     read_attr (S n) repr derive p name b = Ret (v, b1)) /\
  ((~ exists i, only (row_of_packet repr p b1) i) -> read_attr (S n) repr derive p name b = Raise ValueErr) /\
  (forall i, only (row_of_packet repr p b1) i -> ~ In (lower name) names -> read_attr (S n) repr derive p name b = Raise AttributeErr).
Proof. exact read_derived. Qed.

(** What can not be calculated is reported as it was. *)
Theorem C133_error : forall n repr derive p name b e, dget str_eqb (lower name) (s_atts p) = None -> derive name b = Raise e ->
  read_attr (S n) repr derive p name b = Raise e.
Proof. exact read_error. Qed.

(** A packet found by a key whose case does not count, in a category with one loop: if
    calculating the item leaves the key column as it is, the attribute is the new value in the
    very row that the packet was made of. *)
Theorem C133_same_row : forall n repr derive b kv d tbl cat r k0 def ty p name b1 names rows i v,
  WF b -> dget str_eqb cat tbl = Some [VStr k0 :: r] -> def_of d k0 = Ret def -> tget (u "_type.contents") def = Some (VStr ty) ->
  ignores_case ty -> ready b true kv k0 -> keyed_semantic d tbl kv cat b = Ret p ->
  only (row_matches b k0 (key_eq true kv)) i ->
  dget str_eqb (lower name) (s_atts p) = None -> derive name b = Ret b1 -> WF b1 -> is_table b1 names rows ->
  In (lower k0) names -> In (lower name) names -> (forall j w, cell b1 (lower k0) j w <-> cell b (lower k0) j w) ->
  cell b1 (lower name) i v -> read_attr (S n) repr derive p name b = Ret (v, b1).
Proof.
  intros n repr derive b kv d tbl cat r k0 def ty p name b1 names rows i v Hwf Ht Hd Hty Hic Hr Hp Hi Hno Hder Hwf1 Htab Hk Hn Hsame Hv.
  assert (F2 : Forall2 (fun ks k => exists r, ks = VStr k :: r) [VStr k0 :: r] [k0]) by (constructor; [exists r; reflexivity|constructor]).
  destruct (C128_key b true kv d tbl cat _ k0 [] def ty p Hwf Ht F2 Hd Hty) as (k & w & Ek & Ik & Aw & k' & Ik' & names0 & i0 & [Hn0 Ho0] & In0 & C0);
    [split; [reflexivity|intros _; exact Hic]|apply Forall_cons; [exact Hr|apply Forall_nil]|exact Hp|].
  destruct Ik as [<- | []]. destruct Ik' as [<- | []].
  destruct Hr as [(Hr & _) | (names1 & rows1 & Hr1 & Tab & Htx)]; [congruence|]. rewrite Hr1 in Hn0. injection Hn0 as ->.
  assert (Hcl : forall j x, cell b k0 j x <-> cell b (lower k0) j x) by (intros j x; apply (cell_lower b names0 rows1 k0 j x Tab In0)).
  assert (i0 = i) as ->. { destruct Hi as [_ U]. destruct Ho0 as [R0 _]. exact (U i0 R0). }
  destruct (proj1 Hi) as (w0 & Cw & s1 & s2 & -> & Es2 & Es).
  assert (w = VStr s1) as ->.
  { apply Hcl in Cw. destruct Cw as (l & G & N1). destruct C0 as (l' & G' & N1'). rewrite G in G'. injection G' as <-. congruence. }
  destruct (read_derived n repr derive p name b b1 names rows [VStr s1] Hno Hder Hwf1 Htab) as [H _].
  - rewrite Ek. discriminate.
  - rewrite Ek. constructor; [intros []|constructor].
  - rewrite Ek. constructor; [exact Aw|constructor].
  - rewrite Ek. intros k [<- | []]. exact Hk.
  - apply (H i v); [|exact Hv|exact Hn]. split.
    + intros k v0 Ik A. rewrite Ek in Ik. destruct Ik as [<- | []]. unfold att in A. rewrite Aw in A. injection A as <-.
      exists (VStr s1). split; [apply Hsame; exact C0|reflexivity].
    + intros j J. destruct (J k0 (VStr s1)) as (x & Cx & Px); [rewrite Ek; now left|exact Aw|].
      apply Hsame in Cx. apply Hcl in Cx. destruct (Htx eq_refl) as [_ Htx']. destruct (Htx' j x Cx) as (sx & ->).
      destruct Hi as [_ U]. apply U. exists (VStr sx). split; [exact Cx|]. exists sx, s2. split; [reflexivity|]. split; [exact Es2|].
      cbn [printed] in Px. congruence.
Qed.

(** A method that adds the square of the coordinate. *)
Definition sq : value := VList [t "0.01"; t "0.04"; t "0.09"].
Definition derive_sq (name : str) (b : block) : outcome block :=
  if str_eqb name (u "_Site.xx") then Ret (run_ops [OAdd (u "_site.xx") sq; OAddLoopName (u "_site.x") (u "_site.xx")] b) else Raise StarErr.
Definition one_loop : keytable := [(u "site", [[VStr (u "_site.id")]])].
Definition o2 : semantic := mkSemantic [t "O2"; t "0.2"] [(u "_site.id", t "O2"); (u "_site.x", t "0.2")] [u "_site.id"].
Definition squared : block := run_ops (site_ops ++ [OAdd (u "_site.xx") sq; OAddLoopName (u "_site.x") (u "_site.xx")]) (empty_block true (-1) false).
Example squared_wf : WF squared.
Proof.
  apply C03_reachable_wf. exists (site_ops ++ [OAdd (u "_site.xx") sq; OAddLoopName (u "_site.x") (u "_site.xx")]), true, (-1)%Z, false. split; [|now_computed].
  repeat (constructor; try exact I); try (cbn; intuition discriminate).
Qed.
Definition sq_cols : list str := [u "_site.id"; u "_site.x"; u "_site.xx"].
Example C133_meets : keyed_semantic (site_defs "Code") one_loop (t "o2") (u "site") sites = Ret o2 /\
  dget str_eqb (lower (u "_Site.xx")) (s_atts o2) = None /\ derive_sq (u "_Site.xx") sites = Ret squared /\ is_table squared sq_cols 3 /\
  In (lower (u "_site.id")) sq_cols /\ In (lower (u "_Site.xx")) sq_cols /\
  only (row_matches sites (u "_site.id") (key_eq true (t "o2"))) 1 /\
  (forall j w, cell squared (lower (u "_site.id")) j w <-> cell sites (lower (u "_site.id")) j w) /\
  cell squared (lower (u "_Site.xx")) 1 (t "0.04") /\
  read_attr 1 no_repr derive_sq o2 (u "_Site.xx") sites = Ret (t "0.04", squared) /\
  read_attr 0 no_repr derive_sq o2 (u "_SITE.X") sites = Ret (t "0.2", sites) /\
  read_attr 1 no_repr derive_sq o2 (u "_site.y") sites = Raise StarErr.
Proof.
  split; [now_computed|]. split; [now_computed|]. split; [now_computed|]. split.
  { split; [discriminate|]. intros n [<- | [<- | [<- | []]]]; (split; [now_computed|eexists; split; now_computed]). }
  split; [vm_compute; tauto|]. split; [vm_compute; tauto|]. split.
  { split.
    - exists (t "O2"). split; [eexists; split; now_computed|]. exists (u "O2"), (u "o2"). repeat split.
    - intros j (v & (l & E & N1) & a & c & -> & Ec & Es). vm_compute in E. injection E as <-. injection Ec as <-.
      destruct j as [|[|[|j]]]; cbn [nth_error] in N1; [injection N1 as <-; vm_compute in Es; discriminate Es|reflexivity|injection N1 as <-; vm_compute in Es; discriminate Es|destruct j; discriminate N1]. }
  split.
  { assert (E : get_item (lower (u "_site.id")) squared = get_item (lower (u "_site.id")) sites) by now_computed.
    intros j w. unfold cell. rewrite E. tauto. }
  split; [eexists; split; now_computed|]. split; [now_computed|]. split; now_computed.
Qed.

(** The keys are compared without regard to case even where it counts: with keys "a"
    and "A" of type Text each packet is found, but nothing can be calculated for it. *)
Definition case_ops : list op := [OAdd (u "_site.id") (VList [t "a"; t "A"]); OAdd (u "_site.x") (VList [t "1"; t "2"]); OCreate [u "_site.id"; u "_site.x"] (-1)].
Definition case_block : block := run_ops case_ops (empty_block true (-1) false).
Definition derive_two (name : str) (b : block) : outcome block :=
  Ret (run_ops [OAdd (u "_site.xx") (VList [t "1"; t "4"]); OAddLoopName (u "_site.x") (u "_site.xx")] b).
(** Keys of type Text that differ only in case: the packet is found, and the value
    of the item is in the block, but reading it is a ValueError. *)
Theorem C133_case_refuted : exists p b1, keyed_semantic (site_defs "Text") one_loop (t "a") (u "site") case_block = Ret p /\
  derive_two (u "_site.xx") case_block = Ret b1 /\ only (row_matches b1 (u "_site.id") (key_eq false (t "a"))) 0 /\ cell b1 (u "_site.xx") 0 (t "1") /\
  forall n repr, read_attr (S n) repr derive_two p (u "_site.xx") case_block = Raise ValueErr.
Proof.
  exists (mkSemantic [t "a"; t "1"] [(u "_site.id", t "a"); (u "_site.x", t "1")] [u "_site.id"]),
    (run_ops (case_ops ++ [OAdd (u "_site.xx") (VList [t "1"; t "4"]); OAddLoopName (u "_site.x") (u "_site.xx")]) (empty_block true (-1) false)).
  split; [now_computed|]. split; [now_computed|]. split.
  { split.
    - exists (t "a"). split; [eexists; split; now_computed|constructor].
    - intros j (v & (l & E & N1) & K). vm_compute in E. injection E as <-.
      destruct j as [|[|j]]; cbn [nth_error] in N1; [reflexivity|injection N1 as <-; inversion K; match goal with H : _ \/ _ |- _ => destruct H; discriminate end|destruct j; discriminate N1]. }
  split; [eexists; split; now_computed|]. intros n repr.
  erewrite (read_step n repr derive_two _ (u "_site.xx") case_block _ [t "a"]);
    [|now_computed|unfold derive_two; reflexivity|constructor; [intros []|constructor]|constructor; [now_computed|constructor]].
  vm_compute. reflexivity.
Qed.

(** An item of the second loop of a category is calculated and stored, but is looked
    for only in the loop of the first key. *)
Definition derive_aniso (name : str) (b : block) : outcome block :=
  Ret (run_ops [OAdd (u "_aniso.v") (VList [t "25"; t "36"; t "49"]); OAddLoopName (u "_aniso.u") (u "_aniso.v")] b).
(** A packet joins the rows of two loops; an item of the second one is calculated, but
    reading it is an AttributeError. *)
Theorem C133_loop_refuted : exists p b1, keyed_semantic (site_defs "Code") site_table (t "O2") (u "site") sites = Ret p /\
  att p (u "_aniso.id") (t "o2") /\ derive_aniso (u "_aniso.v") sites = Ret b1 /\ cell b1 (u "_aniso.id") 0 (t "o2") /\ cell b1 (u "_aniso.v") 0 (t "25") /\
  forall n repr, read_attr (S n) repr derive_aniso p (u "_aniso.v") sites = Raise AttributeErr.
Proof.
  exists (mkSemantic [t "O2"; t "0.2"; t "o2"; t "5"]
              [(u "_site.id", t "O2"); (u "_site.x", t "0.2"); (u "_aniso.id", t "o2"); (u "_aniso.u", t "5")] [u "_site.id"]),
    (run_ops (site_ops ++ [OAdd (u "_aniso.v") (VList [t "25"; t "36"; t "49"]); OAddLoopName (u "_aniso.u") (u "_aniso.v")]) (empty_block true (-1) false)).
  split; [now_computed|]. split; [now_computed|]. split; [now_computed|].
  split; [eexists; split; now_computed|]. split; [eexists; split; now_computed|]. intros n repr.
  erewrite (read_step n repr derive_aniso _ (u "_aniso.v") sites _ [t "O2"]);
    [|now_computed|unfold derive_aniso; reflexivity|constructor; [intros []|constructor]|constructor; [now_computed|constructor]].
  vm_compute. reflexivity.
Qed.

(** A packet that lacks one of its keys: asking for anything that it does not have
    asks for the key, and that asks for the key again, until python's limit. *)
Theorem C133_no_key_value : forall repr derive p k, In k (s_key p) -> dget str_eqb (lower k) (s_atts p) = None ->
  (forall name b, exists b', derive name b = Ret b') -> forall n name b, dget str_eqb (lower name) (s_atts p) = None ->
  read_attr n repr derive p name b = Raise RecursionErr.
Proof. exact read_missing_key. Qed.
(** Such packets are made: with compound keys that no row has, a packet without any
    values is returned, and reading an item of it ends in a RecursionError. *)
Theorem C133_empty_refuted : exists kd p, multi_semantic no_repr [] [(u "bond", [bond_set])] kd (u "bond") bonds = Ret p /\
  forall n b, read_attr n no_repr (fun _ c => Ret c) p (u "_bond.d") b = Raise RecursionErr.
Proof.
  exists [(u "_bond.a", (t "H9", true)); (u "_bond.b", (t "N3", false))], (mkSemantic [] [] bond_set). split; [now_computed|].
  intros n b. apply (read_missing_key no_repr (fun _ c => Ret c) (mkSemantic [] [] bond_set) (u "_bond.a")); [now left|reflexivity| |reflexivity].
  intros name c. now exists c.
Qed.
(** Where a child category is not in the block the packet has no keys at all, and an
    item that was calculated is not found. *)
Theorem C133_no_keys_refuted : exists p, multi_semantic no_repr [] [(u "bond", [bond_set; tors_set])] bond_kd (u "bond") bonds = Ret p /\
  att p (u "_bond.d") (t "1.4") /\ forall n repr derive b b1, derive (u "_bond.e") b = Ret b1 -> read_attr (S n) repr derive p (u "_bond.e") b = Raise IndexErr.
Proof.
  exists (mkSemantic [t "C1"; t "N3"; t "1.4"] [(u "_bond.a", t "C1"); (u "_bond.b", t "N3"); (u "_bond.d", t "1.4")] []).
  split; [now_computed|]. split; [now_computed|]. intros n repr derive b b1 D.
  rewrite (read_step n repr derive _ (u "_bond.e") b b1 []); [reflexivity|now_computed|exact D|constructor|constructor].
Qed.

Definition attr_theorems := (C133_present, C133_derived, C133_error, C133_same_row, C133_case_refuted, C133_loop_refuted, C133_no_key_value,
  C133_empty_refuted, C133_no_keys_refuted).
Print Assumptions attr_theorems.
