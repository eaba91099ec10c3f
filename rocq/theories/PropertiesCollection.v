(** Properties of block collections: C33 to C39. *)
From Coq Require Import String Ascii List NArith ZArith Bool Permutation Sorted Lia.
From Verif Require Import PyBase PyFacts StarBlockModel ScanModel CollectionModel CollectionSpec CollectionProofs CollectionProofs2 CollectionProofs3 CollectionProofs4.
Import ListNotations.
Open Scope nat_scope.

Ltac known := apply smem_In; vm_compute; reflexivity.
Ltac unknown := apply smem_false; vm_compute; reflexivity.
Lemma differ {A B} (f : A -> B) (x y : A) : f x <> f y -> x <> y.
Proof. intros H ->. now apply H. Qed.
(** Concrete material.  [blk t] is a block with one item. *)
Definition eb : block := empty_block true 0 false.
Definition blk (t : string) : block := fst (set_item (u "_v") (VStr (u t)) eb).
(** A data block with two nested save frames, the second inside the first, and a
    second data block. *)
Definition nested_ops : list cop :=
  [KNew (u "Top") (blk "1") true None; KNew (u "Cat") (blk "2") true (Some (u "top"));
   KNew (u "Item") (blk "3") true (Some (u "CAT")); KNew (u "Other") (blk "4") true None].
Definition nested (sc : scope) : coll := run_cops nested_ops (new_coll StdCif sc false).

(** * C33: case-insensitive maps with an order *)
Theorem C33_histories_partial : forall sd sc un os c,
  c = run_cops os (new_coll sd sc un) -> reachable_ops os (new_coll sd sc un) ->
  NoDup (ckeys c) /\ Permutation (c_order c) (ckeys c) /\ Permutation (map fst (c_child c)) (ckeys c) /\
  (forall x b y, In (x, b) (c_dict c) -> lower y = x -> c_get y c = Ret b) /\
  (forall y, ~ In (lower y) (ckeys c) -> c_get y c = Raise KeyErr) /\
  match c_scope c with
  | Dictionary => Permutation (c_keys c) (ckeys c)
  | Instance => NoDup (c_keys c) /\ forall x, In x (c_keys c) <-> root c x
  end.
Proof.
  intros sd sc un os c -> R. destruct (new_coll_CWF sd sc un) as [W0 V0].
  destruct (run_cops_ok os _ W0 V0 R) as [W V].
  split; [apply W|]. split; [apply W|]. split; [apply W|]. split; [|split; [|exact V]].
  - intros x b y H <-. now apply c_get_spec.
  - intros y H. now apply c_get_missing.
Qed.
(** Membership is by visible name, in any case. *)
Theorem C33_membership : forall c y, c_has y c = true <-> In (lower y) (c_keys c).
Proof. intros. apply smem_In. Qed.
(** An operation that raises changes nothing. *)
Theorem C33_failure_partial : forall sd sc un os o c,
  c = run_cops os (new_coll sd sc un) -> reachable_ops os (new_coll sd sc un) -> reachable_op c o ->
  snd (run_cop o c) <> Ret tt -> fst (run_cop o c) = c.
Proof.
  intros sd sc un os o c -> R Ro. destruct (new_coll_CWF sd sc un) as [W0 V0].
  destruct (run_cops_ok os _ W0 V0 R) as [W V].
  destruct (run_cop_ok o _ W V Ro) as (c' & r & E & _ & _ & H). rewrite E. exact H.
Qed.

(** A parent that does not exist is only warned about, and leaves a block without
    an entry in the parent table: it can be neither written nor deleted. *)
Theorem C33_parent_refuted : exists os c,
  c = run_cops os (new_coll StdCif Dictionary false) /\ snd (run_cop (KNew (u "b") eb true (Some (u "c"))) (run_cops [KNew (u "a") eb true None] (new_coll StdCif Dictionary false))) = Ret tt /\
  os = [KNew (u "a") eb true None; KNew (u "b") eb true (Some (u "c"))] /\
  In (u "b") (ckeys c) /\ ~ In (u "b") (map fst (c_child c)) /\ ~ In (u "b") (c_keys c) /\
  write_plan c = Raise KeyErr /\ snd (c_del (u "b") c) = Raise KeyErr.
Proof.
  eexists _, _. split; [reflexivity|]. split; [vm_compute; reflexivity|]. split; [reflexivity|].
  split; [known|]. split; [unknown|]. split; [unknown|].
  split; vm_compute; reflexivity.
Qed.
(** A block can be made its own parent; queries and output then recurse for ever. *)
Theorem C33_cycle_refuted : exists os c,
  c = run_cops os (new_coll StdCif Dictionary false) /\
  os = [KNew (u "a") eb true None; KNew (u "b") eb true None; KNew (u "c") eb true None; KParent (u "a") (u "b"); KParent (u "b") (u "a")] /\
  below c (u "a") (u "a") /\ get_child_list (u "a") c = Raise RecursionErr.
Proof.
  eexists _, _. split; [reflexivity|]. split; [reflexivity|]. split; [|vm_compute; reflexivity].
  eapply below_more; [apply below_one|]; [exists (u "b")|exists (u "a")]; vm_compute; [right; left|left]; reflexivity.
Qed.

(** * C34: adding a block *)
Theorem C34_new_block : forall c name b f p k,
  CWF c -> visible_ok c -> c_std c <> StdNone -> (forall q, p = Some q -> In (lower q) (ckeys c)) ->
  k = lower (fix_name f name) ->
  (refuses c name b k p /\ new_block name b f p c = (c, Raise StarErr)) \/
  (~ refuses c name b k p /\ exists c' r g,
     new_block name b f p c = (c', Ret r) /\ CWF c' /\ visible_ok c' /\
     (* the new block is found under the returned key *)
     c_get r c' = Ret (stored c b) /\ entry_of c' r = Some (PC (fix_name f name) (option_map (fun q => g (lower q)) p)) /\
     (* and every old one, unchanged, under its old key, except that a top-level
        block of the same name gets a new key *)
     (forall x v, In (x, v) (c_dict c) -> c_get (g x) c' = Ret v /\ g x <> r) /\
     (forall x e, entry_of c x = Some e -> entry_of c' (g x) = Some (PC (pc_id e) (option_map g (pc_parent e)))) /\
     (forall x y, In x (ckeys c) -> In y (ckeys c) -> g x = g y -> x = y) /\
     (forall x, g x <> x -> x = k /\ r = k /\ p <> None /\ root c k) /\
     length (ckeys c') = S (length (ckeys c)) /\ c_order c' = map g (c_order c) ++ [r]).
Proof.
  intros c name b f p k W V S Hp ->.
  destruct (new_block_result c name b f p W V S Hp) as [H|(NR & c' & r & mv & E & W' & V' & Hm & _ & PD & HO & PC' & Hr & NI)]; [now left|].
  right. split; [assumption|]. set (k := lower (fix_name f name)) in *. exists c', r, (shifted k mv).
  split; [assumption|]. split; [assumption|]. split; [assumption|].
  assert (G : forall x v, In (x, v) ((r, stored c b) :: map (fun kb => (shifted k mv (fst kb), snd kb)) (c_dict c)) -> c_get x c' = Ret v).
  { intros x v H. apply c_get_spec; [assumption|]. eapply Permutation_in in H; [|symmetry; exact PD].
    rewrite (cw_low _ W'); [assumption|]. apply (in_map fst) in H. exact H. }
  assert (T : forall x e, In (x, e) ((r, PC (fix_name f name) (option_map (fun q => shifted k mv (lower q)) p)) ::
        map (fun a => (shifted k mv (fst a), PC (pc_id (snd a)) (option_map (shifted k mv) (pc_parent (snd a))))) (c_child c)) ->
        entry_of c' x = Some e).
  { intros x e H. eapply Permutation_in in H; [|symmetry; exact PC']. unfold entry_of.
    apply (dget_In_NoDup str_eqb str_eqb_spec); [now apply table_NoDup|assumption]. }
  split; [apply G; now left|]. split; [apply T; now left|].
  split; [|split; [|split; [|split; [|split]]]].
  - intros x v H. split.
    + apply G. right. apply in_map_iff. exists (x, v). auto.
    + intros Er. apply NI. rewrite <- Er. apply in_map. apply (in_map fst) in H. exact H.
  - intros x e H. apply T. right. apply in_map_iff. exists (x, e). split; [reflexivity|].
    now apply (dget_In str_eqb str_eqb_spec).
  - intros x y Hx Hy. unfold shifted. destruct (str_eqb_spec x k), (str_eqb_spec y k); try congruence.
    + intros ->. destruct Hm as [->|(_ & _ & Hm)]; [congruence|contradiction].
    + intros <-. destruct Hm as [->|(_ & _ & Hm)]; [congruence|contradiction].
  - intros x. unfold shifted. destruct (str_eqb_spec x k) as [->|]; [|congruence]. intros Nm.
    destruct Hm as [->|(H1 & H2 & _)]; [congruence|]. split; [reflexivity|]. split; [|auto].
    destruct Hr as [Hr|[Hr _]]; [assumption|contradiction].
  - unfold ckeys. rewrite !map_length. rewrite (Permutation_length PD). cbn. now rewrite map_length.
  - assumption.
Qed.
Example C34_example : new_block (u "top") (blk "9") true (Some (u "Top")) (nested Instance) =
  (fst (new_block (u "top") (blk "9") true (Some (u "Top")) (nested Instance)), Ret (u "top")) /\
  c_get (u "top+") (fst (new_block (u "top") (blk "9") true (Some (u "Top")) (nested Instance))) = c_get (u "Top") (nested Instance) /\
  get_parent (u "cat") (fst (new_block (u "top") (blk "9") true (Some (u "Top")) (nested Instance))) = Ret (Some (u "top+")).
Proof. split; [|split]; vm_compute; reflexivity. Qed.

(** * C35: deleting a block *)
Theorem C35_delete_partial : forall c k gone,
  CWF c -> visible_ok c -> In (lower k) (ckeys c) ->
  gone = (fun x => x = lower k \/ below c (lower k) x) ->
  (forall x, gone x -> In x (c_keys c)) ->
  exists c', c_del k c = (c', Ret tt) /\
    (forall x b, In (x, b) (c_dict c') <-> In (x, b) (c_dict c) /\ ~ gone x) /\
    (forall x e, In (x, e) (c_child c') <-> In (x, e) (c_child c) /\ ~ gone x) /\
    without gone (c_order c) (c_order c') /\ without gone (c_keys c) (c_keys c') /\
    CWF c' /\ visible_ok c'.
Proof.
  intros c k gone W V K -> H. destruct (del_result c k W V K H) as (c' & D & E & -> & ED & W' & V').
  exists (prune D c). split; [assumption|].
  assert (KD : forall x, kept D x = true <-> ~ (x = lower k \/ below c (lower k) x)) by (intros; rewrite kept_true, ED; reflexivity).
  split; [|split; [|split; [|split; [|auto]]]].
  - intros x b. cbn. rewrite filter_In. cbn. now rewrite KD.
  - intros x b. cbn. rewrite filter_In. cbn. now rewrite KD.
  - exists (kept D). split; [|reflexivity]. intros x _. rewrite <- ED. rewrite <- not_true_iff_false, kept_true.
    destruct (in_dec (list_eq_dec N.eq_dec) x D); tauto.
  - exists (kept D). split; [|reflexivity]. intros x _. rewrite <- ED. rewrite <- not_true_iff_false, kept_true.
    destruct (in_dec (list_eq_dec N.eq_dec) x D); tauto.
Qed.
Theorem C35_missing : forall c k, CWF c -> ~ In (lower k) (ckeys c) -> c_del k c = (c, Raise KeyErr).
Proof. exact del_missing. Qed.
(** Under instance scoping a data block with save frames cannot be deleted: the
    attempt fails half-way, after the innermost frame has lost its contents. *)
Theorem C35_hidden_refuted : exists c c', c = nested Instance /\ CWF c /\ visible_ok c /\ In (u "top") (c_keys c) /\
  c_del (u "top") c = (c', Raise ValueErr) /\ c' <> c /\ In (u "cat") (ckeys c') /\ ~ In (u "item") (ckeys c') /\
  In (u "item") (c_order c') /\ write_plan c' <> write_plan c.
Proof.
  assert (R : reachable_ops nested_ops (new_coll StdCif Instance false)).
  { cbn [reachable_ops nested_ops]. split; [|split; [|split; [|split; [|exact I]]]]; (split; [|vm_compute; intros X; discriminate X]);
      intros q E; try discriminate E; injection E as <-; known. }
  destruct (new_coll_CWF StdCif Instance false) as [W0 V0]. destruct (run_cops_ok nested_ops _ W0 V0 R) as [W V].
  eexists _, _. split; [reflexivity|]. split; [exact W|]. split; [exact V|]. split; [known|].
  split; [vm_compute; reflexivity|]. split; [apply (differ (fun c => length (ckeys c))); vm_compute; discriminate|].
  split; [known|]. split; [unknown|]. split; [known|].
  vm_compute. discriminate.
Qed.

Lemma nested_ok sc : CWF (nested sc) /\ visible_ok (nested sc).
Proof.
  assert (R : reachable_ops nested_ops (new_coll StdCif sc false)).
  { destruct sc; cbn [reachable_ops nested_ops]; (split; [|split; [|split; [|split; [|exact I]]]]; (split; [|vm_compute; intros X; discriminate X]);
      intros q E; try discriminate E; injection E as <-; known). }
  destruct (new_coll_CWF StdCif sc false) as [W0 V0]. exact (run_cops_ok nested_ops _ W0 V0 R).
Qed.
Example C33_example : reachable_ops nested_ops (new_coll StdCif Dictionary false) /\
  c_get (u "iTEM") (nested Dictionary) = Ret (stored (nested Dictionary) (blk "3")) /\ ckeys (nested Dictionary) = [u "top"; u "cat"; u "item"; u "other"].
Proof.
  split; [|split; vm_compute; reflexivity].
  cbn [reachable_ops nested_ops]. split; [|split; [|split; [|split; [|exact I]]]]; (split; [|vm_compute; intros X; discriminate X]);
      intros q E; try discriminate E; injection E as <-; known.
Qed.
Lemma dict_visible c k x : CWF c -> visible_ok c -> c_scope c = Dictionary -> In k (ckeys c) ->
  x = k \/ below c k x -> In x (c_keys c).
Proof.
  intros W V E K H. unfold visible_ok in V. rewrite E in V. unfold c_keys. eapply Permutation_in; [symmetry; exact V|].
  destruct H as [->|H]; [assumption|]. apply (below_keys _ W _ _ H).
Qed.
Example C35_example : exists c', c_del (u "CAT") (nested Dictionary) = (c', Ret tt) /\ ckeys c' = [u "top"; u "other"] /\
  (forall x, x = u "cat" \/ below (nested Dictionary) (u "cat") x -> In x (c_keys (nested Dictionary))).
Proof.
  eexists. split; [vm_compute; reflexivity|]. split; [vm_compute; reflexivity|].
  destruct (nested_ok Dictionary) as [W V]. intros x. apply dict_visible; [exact W|exact V|vm_compute; reflexivity|].
  apply smem_In. vm_compute. reflexivity.
Qed.

(** * C36: renaming a block *)
Theorem C36_rename_partial : forall c old new,
  CWF c -> visible_ok c -> (In (lower old) (ckeys c) -> In (lower old) (c_keys c)) ->
  (In (lower new) (ckeys c) /\ rename old new c = (c, Raise StarErr)) \/
  (~ In (lower new) (ckeys c) /\ ~ In (lower old) (ckeys c) /\ rename old new c = (c, Raise KeyErr)) \/
  (~ In (lower new) (ckeys c) /\ In (lower old) (ckeys c) /\ exists c' g,
     g = (fun x => if str_eqb x (lower old) then lower new else x) /\
     rename old new c = (c', Ret tt) /\ CWF c' /\ visible_ok c' /\
     (forall x v, In (x, v) (c_dict c) -> c_get (g x) c' = Ret v) /\
     (forall x e, entry_of c x = Some e ->
        exists i, entry_of c' (g x) = Some (PC i (option_map g (pc_parent e))) /\
          (x <> lower old -> i = pc_id e) /\ (x = lower old -> new <> [] -> i = new)) /\
     c_order c' = map g (c_order c) /\ Permutation (ckeys c') (map g (ckeys c)) /\ Permutation (c_keys c') (map g (c_keys c))).
Proof.
  intros c old new W V Hv.
  destruct (rename_result c old new W V Hv) as [H|[H|(Nn & b & e & e' & Ib & Ie & Hp & Hi & E & W' & V')]]; [now left|right; now left|].
  right; right. assert (Ko : In (lower old) (ckeys c)) by (apply (in_map fst) in Ib; exact Ib).
  split; [assumption|]. split; [assumption|].
  set (c' := rekeyed (lower old) (lower new) b e' c) in *. exists c', (moved (lower old) (lower new)).
  split; [reflexivity|]. split; [assumption|]. split; [assumption|]. split; [assumption|].
  assert (Eb : dget str_eqb (lower old) (c_dict c) = Some b) by (apply (dget_In_NoDup str_eqb str_eqb_spec); [apply W|assumption]).
  assert (Ee : dget str_eqb (lower old) (c_child c) = Some e) by (apply (dget_In_NoDup str_eqb str_eqb_spec); [now apply table_NoDup|assumption]).
  pose proof (rekeyed_renaming c (lower old) (lower new) b e W Eb Ee) as (PD & PC' & _).
  assert (PD' : Permutation (c_dict c') (map (fun kb => (moved (lower old) (lower new) (fst kb), snd kb)) (c_dict c))) by exact PD.
  split; [|split; [|split; [reflexivity|split]]].
  - intros x v H. apply c_get_spec; [assumption|].
    assert (HI : In (moved (lower old) (lower new) x, v) (c_dict c')).
    { eapply Permutation_in; [symmetry; exact PD'|]. apply in_map_iff. exists (x, v). auto. }
    rewrite (cw_low _ W'); [assumption|]. apply (in_map fst) in HI. exact HI.
  - intros x e1 H. unfold entry_of in *. destruct (str_eqb_spec x (lower old)) as [->|n].
    + assert (e1 = e) by congruence. subst e1. exists (pc_id e').
      split; [|split; [congruence|]].
      * rewrite moved_at. apply (dget_In_NoDup str_eqb str_eqb_spec); [now apply table_NoDup|]. unfold c', rekeyed. cbn [c_child].
        apply in_or_app. right. left. f_equal. destruct e' as [i' q']. cbn [pc_id pc_parent] in *. subst q'. f_equal.
        pose proof (self_parent c W _ _ Ee) as SP. destruct (pc_parent e) as [q|] eqn:Q; [|reflexivity]. cbn. rewrite moved_off; congruence.
      * intros _ Nw. rewrite Hi. now destruct new.
    + exists (pc_id e1). split; [|split; [reflexivity|congruence]].
      rewrite moved_off by assumption. apply (dget_In_NoDup str_eqb str_eqb_spec); [now apply table_NoDup|]. unfold c', rekeyed. cbn [c_child].
      apply in_or_app. left. apply in_map_iff. exists (x, e1). split; [reflexivity|]. apply filter_In.
      split; [now apply (dget_In str_eqb str_eqb_spec)|]. cbn. rewrite kept_one. now destruct (str_eqb_spec x (lower old)).
  - unfold ckeys. rewrite PD', !map_map. reflexivity.
  - unfold c_keys, c', rekeyed. cbn [c_vis]. apply perm_moved; [now apply visible_NoDup|]. now apply Hv.
Qed.
Theorem C36_hidden_refuted : exists c c', c = nested Instance /\ CWF c /\ visible_ok c /\
  rename (u "cat") (u "new") c = (c', Raise ValueErr) /\ c' <> c /\ c_get (u "cat") c' = Raise KeyErr /\ c_get (u "new") c' = Raise KeyErr.
Proof.
  destruct (nested_ok Instance) as [W V].
  eexists _, _. split; [reflexivity|]. split; [exact W|]. split; [exact V|]. split; [vm_compute; reflexivity|].
  split; [apply (differ (fun c => length (ckeys c))); vm_compute; discriminate|].
  split; vm_compute; reflexivity.
Qed.
Example C36_example : exists c', rename (u "CAT") (u "New") (nested Dictionary) = (c', Ret tt) /\
  c_order c' = [u "top"; u "new"; u "item"; u "other"] /\ get_parent (u "item") c' = Ret (Some (u "new")).
Proof. eexists. split; [vm_compute; reflexivity|]. split; vm_compute; reflexivity. Qed.

(** * C37: children *)
Theorem C37_is_child : forall c p x, CWF c ->
  exists t, is_child_of_parent p x c = Ret t /\ (t = true <-> below c (lower p) (lower x)).
Proof. intros c p x W. exact (is_child_ok c W p x). Qed.
Theorem C37_child_list : forall c p, CWF c ->
  exists l, get_child_list p c = Ret l /\ LocallySorted (fun a b => str_leb a b = true) l /\ NoDup l /\
    forall x, In x l <-> below c (lower p) x.
Proof. intros c p W. now apply child_list_ok. Qed.
(** get_children goes by printed names: a data block that contains a save frame of
    its own name is then counted among its own children. *)
Theorem C37_get_children_refuted : exists c n, CWF c /\ visible_ok c /\
  get_children (u "top+") false Dictionary c = Ret n /\ In (u "top+") (ckeys n) /\ ~ below c (u "top+") (u "top+").
Proof.
  pose (os := [KNew (u "Top") (blk "1") true None; KNew (u "Top") (blk "2") true (Some (u "top"))]).
  assert (R : reachable_ops os (new_coll StdCif Instance false)).
  { cbn [reachable_ops os]. split; [|split; [|exact I]]; (split; [|vm_compute; intros X; discriminate X]);
      intros q E; try discriminate E; injection E as <-; known. }
  destruct (new_coll_CWF StdCif Instance false) as [W0 V0]. destruct (run_cops_ok os _ W0 V0 R) as [W V].
  eexists _, _. split; [exact W|]. split; [exact V|]. split; [vm_compute; reflexivity|]. split; [known|].
  exact (cw_acyclic _ W _).
Qed.
Example C37_example : CWF (nested Dictionary) /\ get_child_list (u "TOP") (nested Dictionary) = Ret [u "cat"; u "item"] /\
  is_child_of_parent (u "top") (u "ITEM") (nested Dictionary) = Ret true.
Proof. split; [exact (proj1 (nested_ok _))|]. split; vm_compute; reflexivity. Qed.

(** * C38: every block is written once *)
Theorem C38_written_once : forall c, CWF c ->
  exists tops frames,
    write_plan c = Ret (concat (map (fun r => section (c_std c) r (frames r)) tops)) /\
    without (fun x => ~ root c x) (c_order c) tops /\
    (forall r, In r tops -> without (fun x => ~ below c r x) (c_order c) (frames r)) /\
    Permutation (tops ++ concat (map frames tops)) (ckeys c).
Proof.
  intros c W. unfold write_plan.
  destruct (top_blocks_ok c W (c_order c)) as (keep & E & Hk); [intros x; now rewrite (in_corder c W)|].
  rewrite E. cbn [obind].
  destruct (write_tops_ok c W (filter keep (c_order c))) as (frames & E' & Hf).
  { intros x Hx. apply filter_In in Hx as [Hx _]. now apply (in_corder c W). }
  exists (filter keep (c_order c)), frames. split; [assumption|].
  assert (ND : forall (b : bool) (P : Prop), (b = true <-> P) -> (b = false <-> ~ P)).
  { intros b P H. rewrite <- H, not_true_iff_false. reflexivity. }
  split; [exists keep; split; [|reflexivity]; intros x Hx; rewrite (ND _ _ (Hk x Hx)); tauto|].
  split; [|eapply plan_keys; eauto].
  intros r Hr. destruct (Hf r Hr) as (kp & -> & Hkp). exists kp. split; [|reflexivity].
  intros x Hx. now rewrite (ND _ _ (Hkp x Hx)).
Qed.
Example C38_example : CWF (nested Instance) /\ write_plan (nested Instance) =
  Ret [WHead (u "top"); WFrame (u "cat"); WFrame (u "item"); WBody (u "top"); WHead (u "other"); WBody (u "other")].
Proof. split; [exact (proj1 (nested_ok _))|vm_compute; reflexivity]. Qed.

(** * C39: merging *)
Theorem C39_merge_partial : forall c n parent c',
  CWF c -> CWF n -> NoDup (c_keys c) /\ incl (c_keys c) (ckeys c) -> NoDup (c_keys n) /\ incl (c_keys n) (ckeys n) ->
  c_std c <> StdNone ->
  (* no common name is used with a suffix *)
  (forall k, In k (ckeys c) -> In k (ckeys n) ->
     forall m, 1 <= m -> ~ In (k ++ repeat 43%N m) (ckeys c) /\ ~ In (k ++ repeat 43%N m) (ckeys n)) ->
  (forall p, parent = Some p -> In p (ckeys c)) ->
  merge_fast parent n c = (c', Ret tt) ->
  exists fc fn,
    CWF c' /\ Permutation (ckeys c') (map fc (ckeys c) ++ map fn (ckeys n)) /\
    c_order c' = map fc (c_order c) ++ map fn (c_order n) /\
    (forall x v, In (x, v) (c_dict c) -> c_get (fc x) c' = Ret v) /\
    (forall x v, In (x, v) (c_dict n) -> c_get (fn x) c' = Ret v) /\
    (forall x e, entry_of c x = Some e -> entry_of c' (fc x) = Some (PC (pc_id e) (option_map fc (pc_parent e)))) /\
    (forall x e, entry_of n x = Some e -> entry_of c' (fn x) =
       Some (PC (pc_id e) (match pc_parent e with Some q => Some (fn q) | None => option_map fc parent end))) /\
    (forall x, In x (ckeys c) -> ~ In x (ckeys n) -> fc x = x) /\ (forall x, In x (ckeys n) -> ~ In x (ckeys c) -> fn x = x).
Proof.
  intros c n parent c' W Wn Vc Vn S H Hp E.
  destruct (merge_strict c n parent c' W Wn Vc Vn S H Hp E) as (fc & fn & c1 & n1 & R1 & R2 & W1 & Wn1 & Dj & -> & Hp1 & W' & V' & F1 & F2).
  exists fc, fn. split; [assumption|].
  destruct R1 as (A1 & A2 & A3 & _). destruct R2 as (B1 & B2 & B3 & _).
  assert (GD : forall x v, In (x, v) (c_dict (joined (option_map fc parent) c1 n1)) -> c_get x (joined (option_map fc parent) c1 n1) = Ret v).
  { intros x v HI. apply c_get_spec; [assumption|]. rewrite (cw_low _ W'); [assumption|]. apply (in_map fst) in HI. exact HI. }
  assert (GT : forall x v, In (x, v) (c_child (joined (option_map fc parent) c1 n1)) -> entry_of (joined (option_map fc parent) c1 n1) x = Some v).
  { intros x v HI. unfold entry_of. apply (dget_In_NoDup str_eqb str_eqb_spec); [now apply table_NoDup|assumption]. }
  repeat split.
  - rewrite joined_keys. apply Permutation_app; unfold ckeys; [rewrite A1|rewrite B1]; now rewrite !map_map.
  - cbn. now rewrite A3, B3.
  - intros x v HI. apply GD. cbn. apply in_or_app. left. eapply Permutation_in; [symmetry; exact A1|].
    apply in_map_iff. exists (x, v). auto.
  - intros x v HI. apply GD. cbn. apply in_or_app. right. eapply Permutation_in; [symmetry; exact B1|].
    apply in_map_iff. exists (x, v). auto.
  - intros x e HI. apply (dget_In str_eqb str_eqb_spec) in HI. apply GT. cbn. apply in_or_app. left.
    eapply Permutation_in; [symmetry; exact A2|]. apply in_map_iff. exists (x, e). auto.
  - intros x e HI. apply (dget_In str_eqb str_eqb_spec) in HI. apply GT. cbn. apply in_or_app. right.
    apply in_map_iff. exists (fn x, PC (pc_id e) (option_map fn (pc_parent e))). split.
    + cbn. unfold rp. cbn. destruct parent, (pc_parent e); reflexivity.
    + eapply Permutation_in; [symmetry; exact B2|]. apply in_map_iff. exists (x, e). auto.
  - intros x Hx Hn. destruct (F1 x Hx) as [|[? _]]; [assumption|contradiction].
  - intros x Hx Hn. destruct (F2 x Hx) as [|[? _]]; [assumption|contradiction].
Qed.
(** Without common names nothing can go wrong, in either mode. *)
Theorem C39_disjoint : forall c n parent,
  CWF c -> CWF n -> (forall x, In x (ckeys c) -> ~ In x (ckeys n)) ->
  (forall p, parent = Some p -> In p (ckeys c)) ->
  exists c', merge_fast parent n c = (c', Ret tt) /\ CWF c' /\ ckeys c' = ckeys c ++ ckeys n /\ c_order c' = c_order c ++ c_order n /\
    c_dict c' = c_dict c ++ c_dict n /\
    (forall p x, inside c' p x <-> inside c p x \/ inside n p x \/ (root n x /\ parent = Some p)).
Proof.
  intros c n parent W Wn Dj Hp. rewrite (merge_disjoint c n parent W Wn Dj).
  assert (L : option_map lower parent = parent).
  { destruct parent as [p|]; [|reflexivity]. cbn. f_equal. apply (cw_low _ W). now apply Hp. }
  rewrite L. eexists. split; [reflexivity|]. split; [now apply joined_CWF|]. split; [apply joined_keys|].
  split; [reflexivity|]. split; [reflexivity|]. intros p x. now apply joined_inside.
Qed.

(** Reading a file merges its data blocks one after the other.  With a save frame
    called a in the first data block, two data blocks called a can follow: the
    second replaces the first, although the collection is strict. *)
Definition text_of (b : block) : str := match dget str_eqb (u "_v") (b_data b) with Some (VStr t, _) => t | _ => [] end.
Lemma lacks b l : ~ In (text_of b) (map text_of l) -> ~ In b l.
Proof. intros H X. apply H. now apply in_map. Qed.
Definition one (name : string) (t : string) : coll := run_cops [KNew (u name) (blk t) true None] (new_coll StdCif Instance true).
Theorem C39_lost_refuted : exists c n c' b, c_std c <> StdNone /\ CWF c /\ CWF n /\ merge_fast None n c = (c', Ret tt) /\
  In (u "a+", b) (c_dict c) /\ ~ In b (map snd (c_dict c')) /\ length (c_order c') = 4 /\ length (ckeys c') = 3.
Proof.
  pose (x := run_cops [KNew (u "x") (blk "1") true None; KNew (u "a") (blk "2") true (Some (u "x"))] (new_coll StdCif Instance true)).
  exists (fst (merge_fast None (one "a" "3") x)), (one "a" "4").
  assert (Wx : CWF x).
  { pose (os := [KNew (u "x") (blk "1") true None; KNew (u "a") (blk "2") true (Some (u "x"))]).
    assert (R : reachable_ops os (new_coll StdCif Instance true)).
    { cbn [reachable_ops os]. split; [|split; [|exact I]]; (split; [|vm_compute; intros X; discriminate X]);
        intros q E; try discriminate E; injection E as <-; known. }
    destruct (new_coll_CWF StdCif Instance true) as [W0 V0]. exact (proj1 (run_cops_ok os _ W0 V0 R)). }
  assert (Wa : forall t, CWF (one "a" t)).
  { intros t. assert (R : reachable_ops [KNew (u "a") (blk t) true None] (new_coll StdCif Instance true)).
    { split; [|exact I]. split; [intros q E; discriminate E|vm_compute; intros X; discriminate X]. }
    destruct (new_coll_CWF StdCif Instance true) as [W0 V0]. exact (proj1 (run_cops_ok _ _ W0 V0 R)). }
  assert (W1 : CWF (fst (merge_fast None (one "a" "3") x))).
  { assert (V1 : vis_in x) by (split; [vm_compute; repeat constructor; cbn; intuition discriminate|intros y; vm_compute; intuition]).
    assert (V2 : vis_in (one "a" "3")) by (split; [vm_compute; repeat constructor; cbn; intuition discriminate|intros y; vm_compute; intuition]).
    destruct (merge_strict x (one "a" "3") None (fst (merge_fast None (one "a" "3") x)) Wx (Wa "3"%string) V1 V2) as (fc0 & fn0 & c0 & n0 & _ & _ & _ & _ & _ & _ & _ & Z & _).
    - discriminate.
    - assert (E1 : ckeys x = [u "x"; u "a"]) by (vm_compute; reflexivity).
      assert (E2 : ckeys (one "a" "3") = [u "a"]) by (vm_compute; reflexivity). rewrite E1, E2.
      clear. intros k Hk [<-|[]] m Hm. destruct m as [|m]; [lia|].
      split; intros X; cbn in X; intuition discriminate.
    - discriminate.
    - vm_compute. reflexivity.
    - exact Z. }
  eexists _, _. split; [discriminate|]. split; [exact W1|]. split; [apply Wa|]. split; [vm_compute; reflexivity|].
  split; [vm_compute; right; right; left; reflexivity|].
  split; [|split; vm_compute; reflexivity].
  apply lacks. unknown.
Qed.
(** A data block called a followed by a data block containing a save frame a. *)
Theorem C39_no_parent_refuted : exists c n c', CWF c /\ CWF n /\ visible_ok c /\ visible_ok n /\
  merge_fast None n c = (c', Raise AttributeErr) /\ c' <> c.
Proof.
  pose (os := [KNew (u "b") (blk "1") true None; KNew (u "a") (blk "2") true (Some (u "b"))]).
  pose (os' := [KNew (u "a") (blk "3") true None]).
  destruct (new_coll_CWF StdCif Instance true) as [W0 V0].
  assert (R : reachable_ops os (new_coll StdCif Instance true)).
  { cbn [reachable_ops os]. split; [|split; [|exact I]]; (split; [|vm_compute; intros X; discriminate X]);
      intros q E; try discriminate E; injection E as <-; known. }
  assert (R' : reachable_ops os' (new_coll StdCif Instance true)).
  { split; [|exact I]. split; [intros q E; discriminate E|vm_compute; intros X; discriminate X]. }
  destruct (run_cops_ok os _ W0 V0 R) as [W V]. destruct (run_cops_ok os' _ W0 V0 R') as [W' V'].
  eexists _, _, _. split; [exact W'|]. split; [exact W|]. split; [exact V'|]. split; [exact V|].
  split; [vm_compute; reflexivity|]. apply (differ ckeys). vm_compute. discriminate.
Qed.
(** With a parent, a block of ours is renamed to a key that is fresh for us only. *)
Theorem C39_suffix_refuted : exists c n c' b, CWF c /\ CWF n /\ c_std c <> StdNone /\
  merge_fast (Some (u "p")) n c = (c', Ret tt) /\ In (u "a", b) (c_dict c) /\ ~ In b (map snd (c_dict c')).
Proof.
  pose (os := [KNew (u "p") (blk "1") true None; KNew (u "a") (blk "2") true None]).
  pose (os' := [KNew (u "a") (blk "3") true None; KNew (u "a+") (blk "4") true None]).
  destruct (new_coll_CWF StdCif Instance true) as [W0 V0].
  assert (R : reachable_ops os (new_coll StdCif Instance true)).
  { cbn [reachable_ops os]. split; [|split; [|exact I]]; (split; [|vm_compute; intros X; discriminate X]);
      intros q E; discriminate E. }
  assert (R' : reachable_ops os' (new_coll StdCif Instance true)).
  { cbn [reachable_ops os']. split; [|split; [|exact I]]; (split; [|vm_compute; intros X; discriminate X]);
      intros q E; discriminate E. }
  destruct (run_cops_ok os _ W0 V0 R) as [W V]. destruct (run_cops_ok os' _ W0 V0 R') as [W' V'].
  eexists _, _, _, _. split; [exact W|]. split; [exact W'|]. split; [discriminate|]. split; [vm_compute; reflexivity|].
  split; [vm_compute; right; left; reflexivity|].
  apply lacks. unknown.
Qed.
Example C39_example : exists c', merge_fast (Some (u "top")) (one "Frame" "7") (nested Instance) = (c', Ret tt) /\
  get_parent (u "frame") c' = Ret (Some (u "top")) /\ length (ckeys c') = 5.
Proof. eexists. split; [vm_compute; reflexivity|]. split; vm_compute; reflexivity. Qed.
(** A common name: the block that has it gets another key. *)
Example C39_example_common : exists c', merge_fast (Some (u "top")) (one "Top" "7") (nested Instance) = (c', Ret tt) /\
  get_parent (u "top") c' = Ret (Some (u "top+")) /\ get_parent (u "cat") c' = Ret (Some (u "top+")) /\
  c_get (u "top+") c' = c_get (u "Top") (nested Instance).
Proof. eexists. split; [vm_compute; reflexivity|]. split; [|split]; vm_compute; reflexivity. Qed.

(** One command for all the theorems above: what it lists is the union of what they
    depend on. *)
Definition collection_theorems :=
  (C33_histories_partial,
   C33_membership,
   C33_failure_partial,
   C33_parent_refuted,
   C33_cycle_refuted,
   C34_new_block,
   C35_delete_partial,
   C35_missing,
   C35_hidden_refuted,
   C36_rename_partial,
   C36_hidden_refuted,
   C37_is_child,
   C37_child_list,
   C37_get_children_refuted,
   C38_written_once,
   C39_merge_partial,
   C39_disjoint,
   C39_lost_refuted,
   C39_no_parent_refuted,
   C39_suffix_refuted).
Print Assumptions collection_theorems.
