From Coq Require Import String Ascii List NArith Bool Lia Arith.
From Verif Require Import PyBase PyFacts StarBlockModel ValidateModel CollectionModel CollectionProofs TreeModel EditModel EditSpec.
Import ListNotations.
Open Scope nat_scope.

Definition blk (d : ddic) k := dget str_eqb k (k_blocks d).
Definition chd (d : ddic) k := dget str_eqb k (k_child d).
Definition isid (d : ddic) k := dmem str_eqb k (k_ids d).

Lemma dmem_iff {V} k (l : list (str * V)) : dmem str_eqb k l = true <-> In k (map fst l).
Proof.
  unfold dmem. destruct (dget str_eqb k l) eqn:E.
  - split; [intros _|reflexivity]. apply (dget_In str_eqb str_eqb_spec) in E. apply (in_map fst) in E. exact E.
  - apply (dget_None str_eqb str_eqb_spec) in E. split; [discriminate|]. intros I. now contradiction E.
Qed.
Lemma dmem_not {V} k (l : list (str * V)) : dmem str_eqb k l = false <-> ~ In k (map fst l).
Proof. rewrite <- dmem_iff. destruct (dmem str_eqb k l); intuition congruence. Qed.
Lemma dget_mem {V} k (l : list (str * V)) : In k (map fst l) -> exists v, dget str_eqb k l = Some v.
Proof. intros I. apply dmem_iff in I. unfold dmem in I. destruct (dget str_eqb k l); [eauto|discriminate]. Qed.
Lemma dget_in {V} k v (l : list (str * V)) : NoDup (map fst l) -> (dget str_eqb k l = Some v <-> In (k, v) l).
Proof. intros N. split; [apply (dget_In str_eqb str_eqb_spec)|now apply (dget_In_NoDup str_eqb str_eqb_spec)]. Qed.
Lemma keys_dset_in {V} k (v : V) l x : In x (map fst (dset str_eqb k v l)) <-> In x (map fst l) \/ x = k.
Proof.
  rewrite <- !dmem_iff. unfold dmem. destruct (str_eqb_spec x k) as [->|N].
  - rewrite dget_dset_eq by apply str_eqb_spec. intuition.
  - rewrite dget_dset_neq by (try apply str_eqb_spec; exact N). intuition.
Qed.
Lemma keys_dset_nodup {V} k (v : V) l : NoDup (map fst l) -> NoDup (map fst (dset str_eqb k v l)).
Proof.
  induction l as [|(a, w) r IH]; cbn [dset map fst]; intros N; [repeat constructor; easy|].
  destruct (str_eqb_spec k a) as [->|Na]; cbn [map fst]; [exact N|].
  apply NoDup_cons_iff in N as (A & B). constructor; [|now apply IH]. rewrite keys_dset_in. intros [I| ->]; [now apply A|now apply Na].
Qed.
Lemma ddel_keys {V} k (l : list (str * V)) x : NoDup (map fst l) -> (In x (map fst (ddel str_eqb k l)) <-> In x (map fst l) /\ x <> k).
Proof.
  intros N. rewrite <- !dmem_iff. unfold dmem. destruct (str_eqb_spec x k) as [->|Nx].
  - rewrite dget_ddel_eq by (try apply str_eqb_spec; exact N). intuition discriminate.
  - rewrite dget_ddel_neq by (try apply str_eqb_spec; exact Nx). intuition.
Qed.
Lemma ddel_nodup {V} k (l : list (str * V)) : NoDup (map fst l) -> NoDup (map fst (ddel str_eqb k l)).
Proof.
  induction l as [|(a, w) r IH]; cbn [ddel map fst]; intros N; [constructor|]. apply NoDup_cons_iff in N as (A & B).
  destruct (str_eqb_spec k a) as [->|Na]; [exact B|]. cbn [map fst]. constructor; [|now apply IH].
  intros I. apply (ddel_keys k r a B) in I as (I & _). now apply A.
Qed.

Section Order.
Context (d : ddic) (O : in_order d).
Lemma isid_iff k : isid d k = true <-> In k (map fst (k_ids d)).
Proof. apply dmem_iff. Qed.
Lemma blk_in k e : blk d k = Some e <-> In (k, e) (k_blocks d).
Proof. apply dget_in, (io_blocks _ O). Qed.
Lemma blk_some k : In k (map fst (k_blocks d)) <-> exists e, blk d k = Some e.
Proof.
  split; [apply dget_mem|]. intros (e & E). apply blk_in in E. apply (in_map fst) in E. exact E.
Qed.
Lemma blk_none k : ~ In k (map fst (k_blocks d)) <-> blk d k = None.
Proof. unfold blk. rewrite <- dmem_not. unfold dmem. destruct (dget _ _ _); intuition congruence. Qed.
Lemma chd_some k : In k (map fst (k_blocks d)) <-> exists e, chd d k = Some e.
Proof.
  rewrite <- (io_both _ O). split; [apply dget_mem|]. intros (e & E). apply (dget_In str_eqb str_eqb_spec) in E. apply (in_map fst) in E. exact E.
Qed.
Lemma isid_blk k : isid d k = true -> In k (map fst (k_blocks d)).
Proof. rewrite isid_iff. intros I. apply in_map_iff in I as ((k0, b) & E & I). cbn in E. subst. now apply (io_own _ O) in I. Qed.
Lemma isid_low k : isid d k = true -> lower k = k.
Proof. intros I. apply (io_low _ O). now apply isid_blk. Qed.
Lemma says_iff k t : says d k t <-> isid d k = true /\ exists ov, blk d k = Some (t, ov).
Proof. unfold says. rewrite isid_iff. split; intros (A & ov & B); (split; [exact A|]); exists ov; now apply blk_in. Qed.

Lemma find_ok key : k_find key d = if dmem str_eqb (lower key) (k_blocks d) then Ret (lower key) else Raise KeyErr.
Proof.
  unfold k_find. destruct (dget str_eqb (lower key) (k_ids d)) as [b|] eqn:E; [|reflexivity].
  apply (dget_In str_eqb str_eqb_spec) in E. apply (io_own _ O) in E as (E & I). rewrite E.
  apply dmem_iff in I. now rewrite I.
Qed.
Lemma find_in key : In (lower key) (map fst (k_blocks d)) -> k_find key d = Ret (lower key).
Proof. intros I. rewrite find_ok. apply dmem_iff in I. now rewrite I. Qed.
Lemma get_ok key e : blk d (lower key) = Some e -> k_get key d = Ret e.
Proof.
  intros E. unfold k_get. rewrite find_in by (apply blk_some; eauto). cbn [obind]. unfold blk in E. now rewrite E.
Qed.
Lemma table_ok key t ov : blk d (lower key) = Some (t, ov) -> k_table key d = Ret t.
Proof. intros E. unfold k_table. now rewrite (get_ok key _ E). Qed.
Lemma item_ok key a t ov v : blk d (lower key) = Some (t, ov) -> tget a t = Some v -> k_item key a d = Ret v.
Proof. intros E T. unfold k_item. rewrite (table_ok key _ _ E). cbn [obind]. now rewrite T. Qed.

(** Changing a block that is there *)
Lemma order_put k e : In k (map fst (k_blocks d)) -> in_order (set_blocks (dset str_eqb k e (k_blocks d)) d).
Proof.
  intros I. assert (Q : forall x, In x (map fst (dset str_eqb k e (k_blocks d))) <-> In x (map fst (k_blocks d))).
  { intros x. rewrite keys_dset_in. split; [intros [H| ->]; auto|auto]. }
  constructor; cbn [k_blocks k_child k_ids set_blocks].
  - apply keys_dset_nodup, O.
  - apply O.
  - intros x. rewrite Q. apply O.
  - intros x. rewrite Q. apply O.
  - apply O.
  - intros x b. rewrite Q. apply O.
Qed.
End Order.

Lemma blk_put d k e x : blk (set_blocks (dset str_eqb k e (k_blocks d)) d) x = if str_eqb x k then Some e else blk d x.
Proof.
  unfold blk. cbn [k_blocks set_blocks]. destruct (str_eqb_spec x k) as [->|N]; [now apply dget_dset_eq, str_eqb_spec|].
  apply dget_dset_neq; [apply str_eqb_spec|exact N].
Qed.

(** ** Setting attributes *)
Lemma set_step key a v d t ov : in_order d -> blk d (lower key) = Some (t, ov) -> tmem a t = false \/ ov = true ->
  exists d', k_set key a v d = (d', Ret tt) /\ in_order d'
    /\ (forall x, blk d' x = if str_eqb x (lower key) then Some (dset str_eqb (lower a) v t, ov) else blk d x)
    /\ (forall x, chd d' x = chd d x) /\ (forall x, isid d' x = isid d x) /\ k_ids d' = k_ids d.
Proof.
  intros O E Hov. unfold k_set. assert (I : In (lower key) (map fst (k_blocks d))) by (apply (blk_some d O); eauto).
  rewrite (find_in d O key I). unfold blk in E. rewrite E.
  assert (G : tmem a t && negb ov = false) by (destruct Hov as [->| ->]; [reflexivity|apply andb_false_r]).
  rewrite G. eexists. split; [reflexivity|]. split; [now apply order_put|]. split; [|easy]. intros x. apply blk_put.
Qed.

(** ** Locks *)
Definition flag (ov : bool) (l : list str) (d : ddic) (x : str) : option entry :=
  match blk d x with Some (t, o) => Some (t, if smem x l then ov else o) | None => None end.
Lemma flags_each ov l : forall d, in_order d -> (forall x, In x l -> isid d x = true) ->
  exists d', each (set_flag ov) l d = (d', Ret tt) /\ in_order d' /\ (forall x, blk d' x = flag ov l d x)
    /\ (forall x, chd d' x = chd d x) /\ (forall x, isid d' x = isid d x) /\ k_ids d' = k_ids d.
Proof.
  induction l as [|a r IH]; intros d O H; cbn [each].
  - exists d. split; [reflexivity|]. split; [exact O|]. split; [|easy]. intros x. unfold flag. cbn. now destruct (blk d x) as [(t, o)|].
  - pose proof (H a (or_introl eq_refl)) as Ia. pose proof (isid_blk d O a Ia) as Ib. pose proof (isid_low d O a Ia) as La.
    unfold set_flag at 1. rewrite (find_in d O a) by (rewrite La; exact Ib). rewrite La.
    destruct (proj1 (blk_some d O a) Ib) as ((t, o) & E). unfold blk in E. rewrite E. cbn [then_].
    set (d1 := set_blocks _ d). assert (O1 : in_order d1) by now apply order_put.
    destruct (IH d1 O1) as (d' & E' & O' & B & C & D & F).
    { intros x Ix. exact (H x (or_intror Ix)). }
    exists d'. split; [exact E'|]. split; [exact O'|]. split; [|split; [exact C|split; [exact D|exact F]]].
    intros x. rewrite B. unfold flag. unfold d1. rewrite blk_put. destruct (str_eqb_spec x a) as [->|N].
    + unfold blk. rewrite E. replace (smem a (a :: r)) with true by (symmetry; apply smem_In; now left). destruct (smem a r); reflexivity.
    + replace (smem x (a :: r)) with (smem x r); [reflexivity|]. apply eq_true_iff_eq. rewrite !smem_In. split; [now right|]. intros [->|I]; [contradiction|exact I].
Qed.
Lemma flags_step ov d : in_order d -> exists d', k_flags ov d = (d', Ret tt) /\ in_order d'
    /\ (forall x, blk d' x = match blk d x with Some (t, o) => Some (t, if isid d x then ov else o) | None => None end)
    /\ (forall x, chd d' x = chd d x) /\ (forall x, isid d' x = isid d x) /\ k_ids d' = k_ids d.
Proof.
  intros O. destruct (flags_each ov (k_keys d) d O) as (d' & E & O' & B & C & D & F); [intros x I; now apply isid_iff|].
  exists d'. split; [exact E|]. split; [exact O'|]. split; [|auto]. intros x. rewrite B. unfold flag.
  replace (smem x (k_keys d)) with (isid d x); [reflexivity|]. apply eq_true_iff_eq. rewrite smem_In, isid_iff. reflexivity.
Qed.

(** ** Deleting a definition without frames inside *)
Definition nobody_in (d : ddic) (k : str) : Prop := forall x e, chd d x = Some e -> pc_parent e <> Some k.
Lemma nobody_with_parent d k : in_order d -> nobody_in d k -> with_parent (Some k) (k_child d) = [].
Proof.
  intros O H. unfold with_parent. destruct (filter _ (k_child d)) as [|(x, e) r] eqn:F; [reflexivity|]. exfalso.
  assert (I : In (x, e) (filter (fun a : str * pc => opt_eqb (pc_parent (snd a)) (Some k)) (k_child d))) by (rewrite F; now left).
  apply filter_In in I as (I & M). cbn [snd] in M. apply (H x e).
  - apply dget_in; [apply O|exact I].
  - destruct (pc_parent e) as [p|]; [|discriminate]. cbn in M. destruct (str_eqb_spec p k); congruence.
Qed.
Definition drop (k : str) (d : ddic) : ddic :=
  DDic (ddel str_eqb k (k_blocks d)) (ddel str_eqb k (k_child d)) (ddel str_eqb k (k_ids d)) (k_objs d).
Lemma ddel_absent {V} k (l : list (str * V)) : ~ In k (map fst l) -> ddel str_eqb k l = l.
Proof. apply ddel_notin, str_eqb_spec. Qed.
Lemma star_del_ok del key d : in_order d -> In (lower key) (map fst (k_blocks d)) -> nobody_in d (lower key) ->
  star_del del key d = (DDic (ddel str_eqb (lower key) (k_blocks d)) (ddel str_eqb (lower key) (k_child d)) (k_ids d) (k_objs d), Ret tt).
Proof.
  intros O I H. unfold star_del. rewrite (find_in d O key I). cbn [look]. rewrite (nobody_with_parent d _ O H). cbn [each then_].
  pose proof I as I'. apply dmem_iff in I'. rewrite I'. cbn [negb]. cbn [set_blocks k_child].
  apply (io_both _ O) in I. apply dmem_iff in I. rewrite I. reflexivity.
Qed.
Lemma del_step key d : in_order d -> In (lower key) (map fst (k_blocks d)) -> nobody_in d (lower key) -> k_del key d = (drop (lower key) d, Ret tt).
Proof.
  intros O I H. unfold k_del. cbn [del_def]. destruct (dget str_eqb (lower key) (k_ids d)) as [b|] eqn:E.
  - pose proof E as E'. apply (dget_In str_eqb str_eqb_spec) in E'. destruct (io_own _ O _ _ E') as (Eb & _).
    rewrite star_del_ok by (try rewrite Eb; assumption). cbn [k_ids]. unfold dmem. rewrite E. rewrite Eb. reflexivity.
  - rewrite (star_del_ok _ key d O I H). unfold drop. rewrite (ddel_absent _ (k_ids d)); [reflexivity|].
    now apply (dget_None str_eqb str_eqb_spec) in E.
Qed.
Lemma drop_views k d : in_order d -> in_order (drop k d) /\ forall x,
  blk (drop k d) x = (if str_eqb x k then None else blk d x) /\ chd (drop k d) x = (if str_eqb x k then None else chd d x)
  /\ isid (drop k d) x = (if str_eqb x k then false else isid d x).
Proof.
  intros O. split.
  - constructor; unfold drop; cbn [k_blocks k_child k_ids].
    + apply ddel_nodup, O.
    + apply ddel_nodup, O.
    + intros x. rewrite !ddel_keys by apply O. now rewrite (io_both _ O).
    + intros x I. apply ddel_keys in I as (I & _); [|apply O]. now apply (io_low _ O).
    + apply ddel_nodup, O.
    + intros x b I. assert (J : In (x, b) (k_ids d)).
      { apply (dget_in x b) in I; [|apply ddel_nodup, O]. destruct (str_eqb_spec x k) as [->|N].
        - rewrite dget_ddel_eq in I by (try apply str_eqb_spec; apply O). discriminate.
        - rewrite dget_ddel_neq in I by (try apply str_eqb_spec; exact N). now apply (dget_In str_eqb str_eqb_spec) in I. }
      destruct (io_own _ O _ _ J) as (A & B). split; [exact A|]. apply ddel_keys; [apply O|]. split; [exact B|].
      intros ->. apply (in_map fst) in I. cbn [fst] in I. apply ddel_keys in I as (_ & I); [|apply O]. now apply I.
  - intros x. unfold blk, chd, isid, dmem, drop. cbn [k_blocks k_child k_ids]. destruct (str_eqb_spec x k) as [->|N].
    + rewrite !dget_ddel_eq by (try apply str_eqb_spec; apply O). auto.
    + rewrite !dget_ddel_neq by (try apply str_eqb_spec; exact N). auto.
Qed.

(** ** Renaming *)
Definition moved_to (old new : str) (e : pc) : pc := if opt_eqb (pc_parent e) (Some old) then PC (pc_id e) (Some new) else e.
Lemma repoint_get old new t x : dget str_eqb x (repoint old new t) = option_map (moved_to old new) (dget str_eqb x t).
Proof.
  unfold repoint. induction t as [|(k, e) r IH]; [reflexivity|]. cbn [map fst snd]. unfold moved_to at 1.
  destruct (opt_eqb (pc_parent e) (Some old)) eqn:M; cbn [dget]; destruct (str_eqb x k); cbn [option_map]; unfold moved_to; rewrite ?M; auto.
Qed.
Lemma repoint_keys old new t : map fst (repoint old new t) = map fst t.
Proof. unfold repoint. rewrite map_map. apply map_ext. intros (k, e). cbn [fst snd]. now destruct (opt_eqb _ _). Qed.
Lemma order_repoint old new d : in_order d -> in_order (set_kchild (repoint old new (k_child d)) d).
Proof. intros O. constructor; cbn [k_blocks k_child k_ids set_kchild]; rewrite ?repoint_keys; apply O. Qed.
Lemma moved_nobody old new d : in_order d -> old <> new -> nobody_in (set_kchild (repoint old new (k_child d)) d) old.
Proof.
  intros O N x e E. unfold chd in E. cbn [k_child set_kchild] in E. rewrite repoint_get in E.
  destruct (dget str_eqb x (k_child d)) as [e0|]; [|discriminate]. cbn in E. injection E as <-. unfold moved_to.
  destruct (opt_eqb (pc_parent e0) (Some old)) eqn:M; cbn [pc_parent]; [congruence|].
  intros P. rewrite P in M. cbn in M. destruct (str_eqb_spec old old); congruence.
Qed.
Lemma rekey_step old new id d : in_order d -> In old (map fst (k_blocks d)) -> ~ In new (map fst (k_blocks d)) -> lower new = new ->
  exists e i, blk d old = Some e /\ chd d old = Some i /\
  exists d', k_rekey old new id d = (d', Ret tt) /\ in_order d'
    /\ (forall x, blk d' x = if str_eqb x new then Some e else if str_eqb x old then None else blk d x)
    /\ (forall x, chd d' x = if str_eqb x new then Some (match id with None => i | Some n => PC n (pc_parent i) end)
                             else if str_eqb x old then None else option_map (moved_to old new) (chd d x))
    /\ (forall x, isid d' x = if str_eqb x old then false else isid d x)
    /\ k_ids d' = ddel str_eqb old (k_ids d).
Proof.
  intros O I Nn Ln. pose proof (io_low _ O _ I) as Lo. assert (Non : old <> new) by (intros <-; contradiction).
  destruct (proj1 (blk_some d O old) I) as (e & Ee). destruct (proj1 (chd_some d O old) I) as (i & Ei).
  exists e, i. split; [exact Ee|]. split; [exact Ei|].
  unfold k_rekey. rewrite (get_ok d O old e) by (rewrite Lo; exact Ee). cbn [look]. unfold chd in Ei. rewrite Ei.
  set (d1 := set_kchild _ d). assert (O1 : in_order d1) by now apply order_repoint.
  assert (K : k_del old d1 = (drop old d1, Ret tt)).
  { rewrite <- Lo at 2. apply del_step; [exact O1|rewrite Lo; exact I|rewrite Lo; now apply moved_nobody]. }
  rewrite K. cbn [then_]. destruct (drop_views old d1 O1) as (O2 & V2). set (d2 := drop old d1) in *.
  assert (Nn2 : ~ In new (map fst (k_blocks d2))).
  { unfold d2, drop. cbn [k_blocks]. rewrite ddel_keys by apply O1. intros (J & _). now apply Nn. }
  eexists. split; [reflexivity|]. split; [|split; [|split; [|split]]].
  - constructor; cbn [k_blocks k_child k_ids set_blocks set_kchild].
    + apply keys_dset_nodup, O2.
    + apply keys_dset_nodup, O2.
    + intros x. rewrite !keys_dset_in, (io_both _ O2). reflexivity.
    + intros x Ix. apply keys_dset_in in Ix as [Ix| ->]; [now apply (io_low _ O2)|exact Ln].
    + apply O2.
    + intros x b Ix. destruct (io_own _ O2 _ _ Ix) as (A & B). split; [exact A|]. apply keys_dset_in. now left.
  - intros x. unfold blk. cbn [k_blocks set_blocks set_kchild]. destruct (str_eqb_spec x new) as [->|N].
    + now apply dget_dset_eq, str_eqb_spec.
    + rewrite dget_dset_neq by (try apply str_eqb_spec; exact N). exact (proj1 (V2 x)).
  - intros x. unfold chd. cbn [k_child set_blocks set_kchild]. destruct (str_eqb_spec x new) as [->|N].
    + now apply dget_dset_eq, str_eqb_spec.
    + rewrite dget_dset_neq by (try apply str_eqb_spec; exact N). pose proof (proj1 (proj2 (V2 x))) as C. unfold chd in C. rewrite C.
      destruct (str_eqb x old); [reflexivity|]. unfold d1. cbn [k_child set_kchild]. apply repoint_get.
  - intros x. exact (proj2 (proj2 (V2 x))).
  - reflexivity.
Qed.
Lemma rename_step old new d : in_order d -> isid d (lower old) = true -> ~ In (lower new) (map fst (k_blocks d)) -> new <> [] ->
  exists e i, blk d (lower old) = Some e /\ chd d (lower old) = Some i /\
  exists d', k_rename old new d = (d', Ret tt) /\ in_order d'
    /\ (forall x, blk d' x = if str_eqb x (lower new) then Some e else if str_eqb x (lower old) then None else blk d x)
    /\ (forall x, chd d' x = if str_eqb x (lower new) then Some (PC new (pc_parent i))
                             else if str_eqb x (lower old) then None else option_map (moved_to (lower old) (lower new)) (chd d x))
    /\ (forall x, isid d' x = if str_eqb x (lower new) then true else if str_eqb x (lower old) then false else isid d x).
Proof.
  intros O I Nn Ne. pose proof (isid_blk d O _ I) as Ib.
  destruct (rekey_step (lower old) (lower new) (Some new) d O Ib Nn (lower_idem _)) as (e & i & Ee & Ei & d1 & K & O1 & B & C & D & F).
  exists e, i. split; [exact Ee|]. split; [exact Ei|].
  unfold k_rename. pose proof I as I'. unfold isid, dmem in I'. destruct (dget str_eqb (lower old) (k_ids d)) as [b|] eqn:E; [|discriminate].
  apply (dget_In str_eqb str_eqb_spec) in E. destruct (io_own _ O _ _ E) as (Eb & _).
  unfold star_rename. apply dmem_not in Nn. rewrite Nn. rewrite Eb. apply dmem_iff in Ib. rewrite Ib. cbn [negb].
  destruct new as [|c new]; [contradiction|]. rewrite K. cbn [then_]. set (nw := lower (c :: new)) in *.
  apply dmem_not in Nn. assert (Non : lower old <> nw) by (intros X; rewrite <- X in Nn; apply dmem_iff in Ib; contradiction).
  match goal with |- context [if dmem str_eqb (lower old) ?l then _ else _] => assert (M : dmem str_eqb (lower old) l = false) end.
  { transitivity (isid d1 (lower old)).
    - unfold isid, dmem. rewrite dget_dset_neq by (try apply str_eqb_spec; exact Non). reflexivity.
    - rewrite D. destruct (str_eqb_spec (lower old) (lower old)); congruence. }
  rewrite M. eexists. split; [reflexivity|]. split; [|split; [exact B|split; [exact C|]]].
  - constructor; cbn [k_blocks k_child k_ids set_ids]; try apply O1.
    + apply keys_dset_nodup, O1.
    + intros x b' Ix. apply (dget_in x b') in Ix; [|apply keys_dset_nodup, O1]. destruct (str_eqb_spec x nw) as [->|N].
      * rewrite dget_dset_eq in Ix by apply str_eqb_spec. injection Ix as <-. split; [reflexivity|].
        apply (blk_some d1 O1). exists e. rewrite B. destruct (str_eqb_spec nw nw); congruence.
      * rewrite dget_dset_neq in Ix by (try apply str_eqb_spec; exact N). apply (dget_In str_eqb str_eqb_spec) in Ix. now apply (io_own _ O1) in Ix.
  - intros x. unfold isid, dmem. cbn [k_ids set_ids]. destruct (str_eqb_spec x nw) as [->|N].
    + now rewrite dget_dset_eq by apply str_eqb_spec.
    + rewrite dget_dset_neq by (try apply str_eqb_spec; exact N). exact (D x).
Qed.
