(** Theorems about packets that join the rows of several loops of a category. *)
From Coq Require Import String Ascii List NArith ZArith Bool.
From Verif Require Import PyBase StarBlockModel StarBlockSpec StarBlockProofs StarBlockProofs2 PropertiesBlock LoopModel LoopSpec ValidateModel TreeModel KeyModel SemanticModel SemanticSpec SemanticProofs SemanticProofs2.
Import ListNotations.
Open Scope string_scope.
Open Scope list_scope.
Ltac now_computed := first [vm_compute; reflexivity | reflexivity].

(** Atom sites and, in a loop of their own, the displacement of some of them. *)
Definition t (s : string) : value := VStr (u s).
Definition site_ops : list op :=
  [ OAdd (u "_site.id") (VList [t "C1"; t "O2"; t "N3"]);
    OAdd (u "_site.x") (VList [t "0.1"; t "0.2"; t "0.3"]);
    OCreate [u "_site.id"; u "_site.x"] (-1);
    OAdd (u "_aniso.id") (VList [t "o2"; t "C1"; t "c1"]);
    OAdd (u "_aniso.u") (VList [t "5"; t "6"; t "7"]);
    OCreate [u "_aniso.id"; u "_aniso.u"] (-1); OAdd (u "_single.id") (t "O2") ].
Definition sites : block := run_ops site_ops (empty_block true (-1) false).
Definition site_keys : list str := [u "_site.id"; u "_aniso.id"; u "_other.id"; u "_single.id"].
Definition site_table : keytable := [(u "site", map (fun k => [VStr k]) site_keys)].
Definition site_defs (ty : string) : defs := [(u "_site.id", [(u "_type.contents", t ty)])].

Example sites_wf : WF sites.
Proof.
  apply C03_reachable_wf. exists site_ops, true, (-1)%Z, false. split; [|now_computed].
  repeat (constructor; try exact I); try (cbn; intuition discriminate).
Qed.
Definition site_cols : list str := [u "_site.id"; u "_site.x"].
Example site_is_table : is_table sites site_cols 3.
Proof.
  split; [discriminate|].
  intros n [<-|[<-|[]]]; (split; [now_computed|eexists; split; now_computed]).
Qed.
Example aniso_is_table : is_table sites [u "_aniso.id"; u "_aniso.u"] 3.
Proof.
  split; [discriminate|].
  intros n [<-|[<-|[]]]; (split; [now_computed|eexists; split; now_computed]).
Qed.
Example sites_ready lc : Forall (ready sites lc (t "O2")) site_keys.
Proof.
  apply Forall_cons; [|apply Forall_cons; [|apply Forall_cons; [|apply Forall_cons; [|apply Forall_nil]]]].
  - right. exists site_cols, 3%nat. split; [now_computed|]. split; [exact site_is_table|]. intros _. split; [now eexists|].
    intros i v (l & E & H). vm_compute in E. injection E as <-. apply nth_error_In in H.
    destruct H as [<-|[<-|[<-|[]]]]; eexists; reflexivity.
  - right. exists [u "_aniso.id"; u "_aniso.u"], 3%nat. split; [now_computed|]. split; [exact aniso_is_table|]. intros _. split; [now eexists|].
    intros i v (l & E & H). vm_compute in E. injection E as <-. apply nth_error_In in H.
    destruct H as [<-|[<-|[<-|[]]]]; eexists; reflexivity.
  - left. split; [now_computed|left; now_computed].
  - left. split; [now_computed|]. right. eexists. split; [now_computed|]. split; [discriminate|]. intros l [H|H]; discriminate.
Qed.

(* ------------------------------------------------------------------ C128 *)
Theorem C128_packet : forall b lc kv d tbl cat sets k0 keys def ty,
  WF b -> dget str_eqb cat tbl = Some sets -> Forall2 (fun ks k => exists r, ks = VStr k :: r) sets (k0 :: keys) ->
  def_of d k0 = Ret def -> tget (u "_type.contents") def = Some (VStr ty) -> (ignores_case ty <-> lc = true) ->
  Forall (ready b lc kv) (k0 :: keys) ->
  ((~ exists k, In k (k0 :: keys) /\ key_known b lc kv (k0 :: keys) k) -> keyed_semantic d tbl kv cat b = Raise ValueErr) /\
  ((exists k, In k (k0 :: keys) /\ key_known b lc kv (k0 :: keys) k) ->
   exists p, keyed_semantic d tbl kv cat b = Ret p /\ rows_of b lc kv (k0 :: keys) (s_values p) /\
     (forall n v, dget str_eqb n (s_atts p) = Some v <-> attribute n /\ supplied_last b lc kv (k0 :: keys) n v) /\
     exists l1 k l2, k0 :: keys = l1 ++ k :: l2 /\ s_key p = [k] /\ key_known b lc kv (k0 :: keys) k /\
       forall k', In k' l1 -> ~ key_known b lc kv (k0 :: keys) k').
Proof. intros b lc kv d tbl cat sets k0 keys def ty Hwf. exact (keyed_semantic_spec b lc kv Hwf d tbl cat sets k0 keys def ty). Qed.

Example C128_meets :
  WF sites /\ dget str_eqb (u "site") site_table = Some (map (fun k => [VStr k]) site_keys)
  /\ Forall (ready sites true (t "O2")) site_keys
  /\ keyed_semantic (site_defs "Code") site_table (t "O2") (u "site") sites
     = Ret (mkSemantic [t "O2"; t "0.2"; t "o2"; t "5"]
              [(u "_site.id", t "O2"); (u "_site.x", t "0.2"); (u "_aniso.id", t "o2"); (u "_aniso.u", t "5")] [u "_site.id"])
  /\ keyed_semantic (site_defs "Code") site_table (t "c1") (u "site") sites
     = Ret (mkSemantic [t "C1"; t "0.1"] [(u "_site.id", t "C1"); (u "_site.x", t "0.1")] [u "_site.id"])
  /\ keyed_semantic (site_defs "Text") site_table (t "o2") (u "site") sites
     = Ret (mkSemantic [t "o2"; t "5"] [(u "_aniso.id", t "o2"); (u "_aniso.u", t "5")] [u "_aniso.id"])
  /\ keyed_semantic (site_defs "Text") site_table (t "H9") (u "site") sites = Raise ValueErr.
Proof.
  split; [exact sites_wf|]. split; [now_computed|]. split; [exact (sites_ready true)|].
  repeat split; now_computed.
Qed.

(** A packet that is found has a row for the key that it names: what is calculated
    from it later is looked up through this key. *)
Theorem C128_key : forall b lc kv d tbl cat sets k0 keys def ty p,
  WF b -> dget str_eqb cat tbl = Some sets -> Forall2 (fun ks k => exists r, ks = VStr k :: r) sets (k0 :: keys) ->
  def_of d k0 = Ret def -> tget (u "_type.contents") def = Some (VStr ty) -> (ignores_case ty <-> lc = true) ->
  Forall (ready b lc kv) (k0 :: keys) -> keyed_semantic d tbl kv cat b = Ret p ->
  exists k v, s_key p = [k] /\ In k (k0 :: keys) /\ dget str_eqb (lower k) (s_atts p) = Some v /\
    exists k', In k' (k0 :: keys) /\ supplies b lc kv k' (lower k) v.
Proof.
  intros b lc kv d tbl cat sets k0 keys def ty p Hwf H1 H2 H3 H4 H5 H6 E.
  destruct (keyed_semantic_spec b lc kv Hwf d tbl cat sets k0 keys def ty H1 H2 H3 H4 H5 H6) as [Hno Hyes].
  destruct Hyes as (p' & E' & _ & Ha & l1 & k & l2 & El & Ek & Hk & _).
  { assert (~ ~ exists k, In k (k0 :: keys) /\ key_known b lc kv (k0 :: keys) k) as Hnn by (intros H; rewrite (Hno H) in E; discriminate).
    clear - Hnn Hwf H6.
    assert (forall k, key_known b lc kv (k0 :: keys) k \/ ~ key_known b lc kv (k0 :: keys) k) as Hdec.
    { intros k. destruct (gather_spec b lc kv Hwf (k0 :: keys) H6 None ([], [])) as (m & _ & _ & _ & _ & Ha).
      unfold key_known. rewrite <- (supplied_exists b lc kv Hwf (k0 :: keys) (lower k) H6).
      destruct (dget str_eqb (lower k) (snd m)) as [v|] eqn:Ed.
      - left. apply Ha in Ed. destruct Ed as [[Hx Hy]|[_ Hx]]; [|discriminate]. split; [exact Hx|now exists v].
      - right. intros (Hx & v & Hy). assert (dget str_eqb (lower k) (snd m) = Some v) as Hz by (apply Ha; left; auto). congruence. }
    assert (forall l, (exists k, In k l /\ key_known b lc kv (k0 :: keys) k) \/ ~ exists k, In k l /\ key_known b lc kv (k0 :: keys) k) as Hl.
    { induction l as [|a l IH]; [right; intros (k & [] & _)|].
      destruct (Hdec a) as [Ha|Ha]; [left; exists a; split; [now left|exact Ha]|].
      destruct IH as [(k & Hi & Hk)|IH]; [left; exists k; split; [now right|exact Hk]|].
      right. intros (k & [<-|Hi] & Hk); [exact (Ha Hk)|]. apply IH. now exists k. }
    destruct (Hl (k0 :: keys)) as [H|H]; [exact H|contradiction]. }
  rewrite E in E'. injection E' as <-. destruct Hk as [Hat Hex].
  destruct (proj2 (supplied_exists b lc kv Hwf (k0 :: keys) (lower k) H6) Hex) as [v Hv].
  exists k, v. split; [exact Ek|]. split; [rewrite El; apply in_elt|]. split; [apply Ha; auto|].
  destruct Hv as (m1 & k' & m2 & -> & Hs & _). exists k'. split; [apply in_elt|exact Hs].
Qed.

(** Whether case counts is taken from the first key alone: the second loop has a
    key that is a text, of which "C1" and "c1" are different values, but its rows
    are looked up without regard to case, so that none is found. *)
Theorem C128_case_refuted : exists d tbl b p, WF b /\
  def_of d (u "_aniso.id") = Ret [(u "_type.contents", t "Text")] /\
  cell b (u "_aniso.id") 1 (t "C1") /\ (forall i, cell b (u "_aniso.id") i (t "C1") -> i = 1%nat) /\
  keyed_semantic d tbl (t "C1") (u "site") b = Ret p /\ dget str_eqb (u "_aniso.u") (s_atts p) = None.
Proof.
  exists (site_defs "Code" ++ [(u "_aniso.id", [(u "_type.contents", t "Text")])]), site_table, sites. eexists.
  split; [exact sites_wf|]. split; [now_computed|]. split; [eexists; split; now_computed|].
  split; [|split; [vm_compute; reflexivity|now_computed]].
  intros i (l & E & H). vm_compute in E. injection E as <-. destruct i as [|[|[|i]]]; try (vm_compute in H; congruence).
  exfalso. cbn [nth_error] in H. destruct i; discriminate.
Qed.

Definition unset_block : block :=
  run_ops [OAdd (u "_site.id") (VSL [])] (empty_block true (-1) false).
(** A key that is in the block without a value, outside a loop, makes the search
    fail with an error about a variable that has none. *)
Theorem C128_unset_refuted : exists d tbl kv,
  get_item (u "_site.id") unset_block = Ret (VSL []) /\ keyed_semantic d tbl kv (u "site") unset_block = Raise NameErr.
Proof. exists (site_defs "Code"), site_table, (t "C1"). split; now_computed. Qed.

Definition twice_block : block := run_ops (site_ops ++ [OAdd (u "_other.id") (VSL [])]) (empty_block true (-1) false).
(** The same in a later category: the row that was found for an earlier one is put
    in twice. *)
Theorem C128_repeated_refuted : exists d tbl p,
  keyed_semantic d tbl (t "N3") (u "site") twice_block = Ret p /\ s_values p = [t "N3"; t "0.3"; t "N3"; t "0.3"].
Proof. exists (site_defs "Code"), site_table. eexists. split; [vm_compute; reflexivity|now_computed]. Qed.

(* ------------------------------------------------------------------ C129 *)
Theorem C129_compound : forall repr equivs tbl kd cat b l1 ks l2 ns names rows,
  WF b -> dget str_eqb cat tbl = Some (l1 ++ ks :: l2) ->
  (forall s, In s (l1 ++ l2) -> exists k, In k s /\ is_away equivs b k) ->
  ks <> [] -> Forall2 (goes_by equivs b) ks ns -> NoDup ns -> is_table b names rows ->
  (forall n, In n ns -> In (lower n) names) -> (forall k, In k ks -> exists x, dget str_eqb k kd = Some x) ->
  let Q := row_has repr kd b ks ns in
  exists s, multi_semantic repr equivs tbl kd cat b = Ret s /\ (l2 = [] -> s_key s = ns) /\
    (forall i, only Q i -> Forall2 (fun n v => cell b n i v) names (s_values s) /\
       forall n v, dget str_eqb n (s_atts s) = Some v <-> attribute n /\ In n names /\ cell b n i v) /\
    ((~ exists i, only Q i) -> s_values s = [] /\ s_atts s = []).
Proof. exact multi_single_spec. Qed.

(** Bonds between two atoms, and the angles that a child category adds to them. *)
Definition bond_ops : list op :=
  [ OAdd (u "_bond.a") (VList [t "C1"; t "C1"]); OAdd (u "_bond.b") (VList [t "O2"; t "N3"]);
    OAdd (u "_bond.d") (VList [t "1.2"; t "1.4"]); OCreate [u "_bond.a"; u "_bond.b"; u "_bond.d"] (-1) ].
Definition bonds : block := run_ops bond_ops (empty_block true (-1) false).
Definition tors_ops : list op :=
  [ OAdd (u "_tors.a") (VList [t "C1"]); OAdd (u "_tors.b") (VList [t "N3"]);
    OAdd (u "_tors.w") (VList [t "180"]); OCreate [u "_tors.a"; u "_tors.b"; u "_tors.w"] (-1) ].
Definition bonds_tors : block := run_ops (bond_ops ++ tors_ops) (empty_block true (-1) false).
Definition bond_cols : list str := [u "_bond.a"; u "_bond.b"; u "_bond.d"].
Definition bond_kd : keydict := [(u "_bond.a", (t "c1", true)); (u "_bond.b", (t "N3", false))].
Definition bond_set : list str := [u "_bond.a"; u "_bond.b"].
Definition tors_set : list str := [u "_tors.a"; u "_tors.b"].
Definition no_repr (v : value) : str := [].
Example bonds_wf : WF bonds.
Proof.
  apply C03_reachable_wf. exists bond_ops, true, (-1)%Z, false. split; [|now_computed].
  repeat (constructor; try exact I); try (cbn; intuition discriminate).
Qed.
Definition bond_equivs : list (str * list str) := [(u "_edge.a", [u "_bond.x"; u "_bond.a"])].
Definition edge_set : list str := [u "_edge.a"; u "_bond.b"].
Definition edge_kd : keydict := [(u "_edge.a", (t "c1", true)); (u "_bond.b", (t "N3", false))].
Definition edge_table : list (str * list (list str)) := [(u "bond", [edge_set; tors_set])].
Example C129_meets : WF bonds /\ dget str_eqb (u "bond") edge_table = Some ([] ++ edge_set :: [tors_set]) /\
  (forall s, In s ([] ++ [tors_set]) -> exists k, In k s /\ is_away bond_equivs bonds k) /\
  edge_set <> [] /\ Forall2 (goes_by bond_equivs bonds) edge_set bond_set /\ NoDup bond_set /\ is_table bonds bond_cols 2 /\
  (forall n, In n bond_set -> In (lower n) bond_cols) /\ (forall k, In k edge_set -> exists x, dget str_eqb k edge_kd = Some x) /\
  only (row_has no_repr edge_kd bonds edge_set bond_set) 1 /\
  (exists s, multi_semantic no_repr bond_equivs edge_table edge_kd (u "bond") bonds = Ret s /\
    s_values s = [t "C1"; t "N3"; t "1.4"] /\ s_atts s = [(u "_bond.a", t "C1"); (u "_bond.b", t "N3"); (u "_bond.d", t "1.4")]).
Proof.
  split; [exact bonds_wf|]. split; [now_computed|]. split.
  { intros s [<-|[]]. exists (u "_tors.a"). split; [now left|]. intros n l [->|[E _]]; [now_computed|vm_compute in E; discriminate]. }
  split; [discriminate|]. split.
  { constructor; [|constructor; [|constructor]].
    - exists [u "_bond.x"], [u "_edge.a"]. split; [now_computed|]. split; [now_computed|]. intros x [<-|[]]. now_computed.
    - exists [], []. split; [now_computed|]. split; [now_computed|]. intros x []. }
  split; [repeat constructor; cbn; intuition discriminate|]. split.
  { split; [discriminate|]. intros n [<-|[<-|[<-|[]]]]; (split; [now_computed|eexists; split; now_computed]). }
  split; [intros n [<-|[<-|[]]]; vm_compute; auto|].
  split; [intros k [<-|[<-|[]]]; eexists; vm_compute; reflexivity|].
  split; [|eexists; split; [vm_compute; reflexivity|split; now_computed]].
  split.
  - intros k n x [E|[E|[]]] Hx; injection E as <- <-; vm_compute in Hx; injection Hx as <-.
    + exists (t "C1"). split; [eexists; split; now_computed|now_computed].
    + exists (t "N3"). split; [eexists; split; now_computed|constructor].
  - intros j Hj. destruct (Hj (u "_bond.b") (u "_bond.b") (t "N3", false) (or_intror (or_introl eq_refl)) eq_refl) as (v & (l & E & Hv) & Hk).
    vm_compute in E. injection E as <-. cbn [key_holds snd fst] in Hk. inversion Hk; subst.
    + destruct j as [|[|j]]; [vm_compute in Hv; discriminate|reflexivity|]. cbn [nth_error] in Hv. destruct j; discriminate.
    + match goal with H : t "N3" = VList _ \/ _ |- _ => destruct H; discriminate end.
Qed.

(** Joining the loops of a child category never works with compound keys: as soon
    as all keys of one of the categories are in the block and one of them is not
    among the names that the caller gave, there is an exception. *)
Theorem C129_child_fails : forall repr equivs tbl kd cat b sets ks k,
  dget str_eqb cat tbl = Some sets -> In ks sets -> In k ks ->
  dget str_eqb k kd = None -> (forall x, In x ks -> has_key x b = true) ->
  exists e, multi_semantic repr equivs tbl kd cat b = Raise e.
Proof. exact multi_child_fails. Qed.

(** The names of the child category's keys are entered as tuples: a torsion loop
    beside the bonds makes the search for a bond fail with a KeyError. *)
Theorem C129_child_refuted : exists repr equivs tbl kd cat,
  (exists p, multi_semantic repr equivs tbl kd cat bonds = Ret p /\ s_values p <> []) /\
  multi_semantic repr equivs tbl kd cat bonds_tors = Raise KeyErr.
Proof.
  exists no_repr, [], [(u "bond", [bond_set; tors_set])], bond_kd, (u "bond").
  split; [eexists; split; [vm_compute; reflexivity|vm_compute; discriminate]|now_computed].
Qed.

(** Without the loops of the child category the packet names no key at all or the
    wrong number of them, because those of the last category are taken. *)
Theorem C129_key_refuted : exists repr equivs tbl kd cat p,
  multi_semantic repr equivs tbl kd cat bonds = Ret p /\ s_values p <> [] /\ s_key p = [].
Proof.
  exists no_repr, [], [(u "bond", [bond_set; tors_set])], bond_kd, (u "bond"). eexists.
  split; [vm_compute; reflexivity|]. split; [vm_compute; discriminate|now_computed].
Qed.

(** A key that no row has gives an empty packet where one key alone would be an
    error. *)
Theorem C129_absent_refuted : exists repr equivs tbl kd cat,
  multi_semantic repr equivs tbl kd cat bonds = Ret (mkSemantic [] [] bond_set).
Proof.
  exists no_repr, [], [(u "bond", [bond_set])], [(u "_bond.a", (t "H9", true)); (u "_bond.b", (t "N3", false))], (u "bond"). now_computed.
Qed.

Definition semantic_theorems := (C128_packet, C128_key, C128_case_refuted, C128_unset_refuted, C128_repeated_refuted,
  C129_compound, C129_child_fails, C129_child_refuted, C129_key_refuted, C129_absent_refuted).
Print Assumptions semantic_theorems.
