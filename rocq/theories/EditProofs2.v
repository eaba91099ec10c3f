From Coq Require Import String Ascii List NArith Bool Lia Arith.
From Verif Require Import PyBase PyFacts StarBlockModel ValidateModel CollectionModel CollectionProofs TreeModel TreeProofs EditModel EditSpec EditProofs.
Import ListNotations.
Open Scope nat_scope.

Lemma eqb_same x : str_eqb x x = true.
Proof. destruct (str_eqb_spec x x); congruence. Qed.
Lemma eqb_diff x y : x <> y -> str_eqb x y = false.
Proof. destruct (str_eqb_spec x y); congruence. Qed.
Lemma tget_set a v t b : tget b (dset str_eqb (lower a) v t) = if str_eqb (lower b) (lower a) then Some v else tget b t.
Proof.
  unfold tget. destruct (str_eqb_spec (lower b) (lower a)) as [->|N]; [now apply dget_dset_eq, str_eqb_spec|].
  apply dget_dset_neq; [apply str_eqb_spec|exact N].
Qed.
Lemma within_chd d k p : in_order d -> (within d k p <-> exists e, chd d k = Some e /\ pc_parent e = p).
Proof.
  intros O. unfold within, chd. split.
  - intros (i & I). exists (PC i p). split; [|reflexivity]. apply dget_in; [apply O|exact I].
  - intros ((i, q) & E & <-). exists i. now apply (dget_in k) in E; [|apply O].
Qed.
Lemma follow_moved old new e : pc_parent (moved_to old new e) = follow old new (pc_parent e).
Proof.
  unfold moved_to, follow. destruct (pc_parent e) as [q|] eqn:P; cbn [opt_eqb]; [|exact P].
  destruct (str_eqb_spec q old) as [->|N]; destruct (list_eq_dec N.eq_dec _ old); cbn [pc_parent]; congruence.
Qed.
Lemma catobj_not_nil c o : catobj_name c o <> [].
Proof. discriminate. Qed.
Lemma locked_of d d1 : in_order d -> in_order d1 -> (forall x, isid d1 x = isid d x) ->
  (forall x, blk d1 x = match blk d x with Some (t, o) => Some (t, if isid d x then false else o) | None => None end) -> locked d1.
Proof.
  intros O O1 Hi Hb k I. apply isid_iff in I. rewrite Hi in I. destruct (proj1 (blk_some d O k) (isid_blk d O k I)) as ((t, o) & E).
  exists t. apply (blk_in d1 O1). rewrite Hb, E, I. reflexivity.
Qed.

Section ChangeName.
Context (x newobj cat : str) (d : ddic) (t : table) (O : in_order d) (S : says d (lower x) t).
Let newid := catobj_name cat newobj.

Lemma change_name_works : tget a_title t = None -> tget a_category t = Some (VStr cat) -> ~ In (lower newid) (map fst (k_blocks d)) ->
  exists d' t', change_name x newobj d = (d', Ret newid) /\ in_order d' /\ locked d'
    /\ changed [(a_def, VStr newid); (a_object, VStr newobj)] t t'
    /\ (forall k s, says d' k s <-> k = lower newid /\ s = t' \/ k <> lower newid /\ k <> lower x /\ says d k s)
    /\ (forall k p, within d' k p <-> k = lower newid /\ within d (lower x) p \/ k <> lower newid /\ k <> lower x /\ exists q, within d k q /\ p = follow (lower x) (lower newid) q).
Proof.
  intros Ht Hc Hn. apply (says_iff d O) in S as (I & ov & E).
  unfold change_name. rewrite (table_ok d O x t ov E). cbn [look]. unfold tmem. rewrite Ht.
  rewrite (item_ok d O x a_category t ov _ E Hc). cbn [obind as_text look]. fold newid.
  destruct (flags_step true d O) as (d1 & E1 & O1 & B1 & C1 & D1 & F1). rewrite E1. cbn [then_].
  destruct (rename_step x newid d1 O1) as (e & i & Ee & Ei & d2 & E2 & O2 & B2 & C2 & D2).
  { now rewrite D1. }
  { rewrite (blk_none d1), B1. apply blk_none in Hn. now rewrite Hn. }
  { apply catobj_not_nil. }
  rewrite E2. cbn [then_]. rewrite B1, E, I in Ee. injection Ee as <-.
  destruct (set_step newid a_def (VStr newid) d2 t true O2) as (d3 & E3 & O3 & B3 & C3 & D3 & F3).
  { rewrite B2, eqb_same. reflexivity. } { now right. }
  rewrite E3. cbn [then_].
  destruct (set_step newid a_object (VStr newobj) d3 (dset str_eqb (lower a_def) (VStr newid) t) true O3) as (d4 & E4 & O4 & B4 & C4 & D4 & F4).
  { rewrite B3, eqb_same. reflexivity. } { now right. }
  rewrite E4. cbn [then_].
  destruct (flags_step false d4 O4) as (d5 & E5 & O5 & B5 & C5 & D5 & F5). rewrite E5. cbn [then_].
  set (t' := dset str_eqb (lower a_object) (VStr newobj) (dset str_eqb (lower a_def) (VStr newid) t)) in *.
  exists d5, t'. split; [reflexivity|]. split; [exact O5|]. split; [eapply locked_of; [exact O4|exact O5| |]; auto|].
  assert (Nxn : lower x <> lower newid). { intros X. apply Hn. rewrite <- X. now apply isid_blk. }
  split; [|split].
  - split.
    + intros a v [[= <- <-]|[[= <- <-]|[]]]; unfold t'; rewrite !tget_set; reflexivity.
    + intros b Nb. unfold t'. rewrite !tget_set. rewrite eqb_diff by (intros X; apply Nb; right; left; symmetry; exact X).
      rewrite eqb_diff by (intros X; apply Nb; left; symmetry; exact X). reflexivity.
  - intros k s. rewrite (says_iff d5 O5), (says_iff d O), D5, D4, D3, D2, D1, B5, B4, B3, B2, B1.
    destruct (str_eqb_spec k (lower newid)) as [->|N1].
    + split; [intros (_ & o & [= <- _]); left; auto|]. intros [(_ & ->)|(X & _)]; [|contradiction]. split; [reflexivity|eauto].
    + destruct (str_eqb_spec k (lower x)) as [->|N2].
      * split; [intros (X & _); discriminate|]. intros [(X & _)|(_ & X & _)]; contradiction.
      * split.
        -- intros (A & o & B). right. split; [exact N1|]. split; [exact N2|]. split; [exact A|]. destruct (blk d k) as [(t0, o0)|]; [|discriminate]. injection B as <- _. eauto.
        -- intros [(X & _)|(_ & _ & A & o & B)]; [contradiction|]. split; [exact A|]. rewrite B. eauto.
  - intros k p. rewrite (within_chd d5 k p O5), (within_chd d _ p O), C5, C4, C3, C2.
    destruct (str_eqb_spec k (lower newid)) as [->|N1].
    + rewrite C1 in Ei. split.
      * intros (e & [= <-] & P). left. split; [reflexivity|]. exists i. now split.
      * intros [(_ & e & E' & P)|(X & _)]; [|contradiction]. rewrite Ei in E'. injection E' as <-. eexists. split; [reflexivity|exact P].
    + destruct (str_eqb_spec k (lower x)) as [->|N2].
      * split; [intros (e & X & _); discriminate|]. intros [(X & _)|(_ & X & _)]; contradiction.
      * rewrite C1. split.
        -- intros (e & X & P). right. split; [exact N1|]. split; [exact N2|]. destruct (chd d k) as [e0|] eqn:Q; [|discriminate]. injection X as <-.
           exists (pc_parent e0). split; [apply within_chd; [exact O|]; eauto|]. rewrite <- P. apply follow_moved.
        -- intros [(X & _)|(_ & _ & q & W & ->)]; [contradiction|]. apply within_chd in W as (e0 & Q & <-); [|exact O]. rewrite Q. cbn [option_map].
           eexists. split; [reflexivity|]. apply follow_moved.
Qed.
(** A name that is taken is refused; only the locks are gone. *)
Lemma change_name_taken : tget a_title t = None -> tget a_category t = Some (VStr cat) -> In (lower newid) (map fst (k_blocks d)) ->
  exists d', change_name x newobj d = (d', Raise StarErr) /\ in_order d' /\ (forall k s, says d' k s <-> says d k s) /\ forall k p, within d' k p <-> within d k p.
Proof.
  intros Ht Hc Hn. apply (says_iff d O) in S as (I & ov & E).
  unfold change_name. rewrite (table_ok d O x t ov E). cbn [look]. unfold tmem. rewrite Ht.
  rewrite (item_ok d O x a_category t ov _ E Hc). cbn [obind as_text look]. fold newid.
  destruct (flags_step true d O) as (d1 & E1 & O1 & B1 & C1 & D1 & F1). rewrite E1. cbn [then_].
  unfold k_rename. rewrite F1. pose proof I as I'. unfold isid, dmem in I'. destruct (dget str_eqb (lower x) (k_ids d)) as [b|] eqn:Eb; [|discriminate].
  unfold star_rename. assert (M : dmem str_eqb (lower newid) (k_blocks d1) = true).
  { apply dmem_iff. apply (blk_some d1 O1). rewrite B1. apply (blk_some d O) in Hn as ((t0, o0) & ->). eauto. }
  rewrite M. cbn [then_]. eexists. split; [reflexivity|]. split; [exact O1|]. split.
  - intros k s. rewrite (says_iff d1 O1), (says_iff d O), D1, B1. split.
    + intros (A & o & B). split; [exact A|]. destruct (blk d k) as [(t0, o0)|]; [|discriminate]. injection B as <- _. eauto.
    + intros (A & o & ->). split; [exact A|]. eauto.
  - intros k p. rewrite (within_chd d1 k p O1), (within_chd d k p O). now setoid_rewrite C1.
Qed.
End ChangeName.

Lemma parent_step p c d : in_order d -> In (lower p) (map fst (k_blocks d)) -> In (lower c) (map fst (k_blocks d)) ->
  exists d' i, chd d (lower c) = Some i /\ k_parent p c d = (d', Ret tt) /\ in_order d'
    /\ (forall x, blk d' x = blk d x) /\ (forall x, chd d' x = if str_eqb x (lower c) then Some (PC (pc_id i) (Some (lower p))) else chd d x)
    /\ (forall x, isid d' x = isid d x).
Proof.
  intros O Ip Ic. unfold k_parent. destruct (proj1 (chd_some d O (lower c)) Ic) as (i & Ei).
  pose proof Ip as Ip'. pose proof Ic as Ic'. apply dmem_iff in Ip', Ic'. rewrite Ip', Ic'. cbn [negb]. unfold chd in Ei. rewrite Ei.
  eexists _, i. split; [exact Ei|]. split; [reflexivity|]. split; [|split; [reflexivity|split; [|reflexivity]]].
  - constructor; cbn [k_blocks k_child k_ids set_kchild]; try apply O.
    + apply keys_dset_nodup, O.
    + intros k. rewrite keys_dset_in, (io_both _ O). split; [intros [H| ->]; auto|auto].
  - intros x. unfold chd. cbn [k_child set_kchild]. destruct (str_eqb_spec x (lower c)) as [->|N]; [now apply dget_dset_eq, str_eqb_spec|].
    apply dget_dset_neq; [apply str_eqb_spec|exact N].
Qed.
Lemma is_item_iff t : is_item t = true <-> itemdef t.
Proof.
  unfold is_item, itemdef, a_scope. destruct (tget (u "_definition.scope") t) as [v|]; [|split; auto].
  rewrite veq_text_spec. split; [auto|]. intros [H|H]; [discriminate|exact H].
Qed.

Section ChangeCategory.
Context (x cat c obj : str) (d : ddic) (t : table) (O : in_order d) (S : says d (lower x) t).
Context (Hc : tget a_category t = Some (VStr c)) (Nc : lower c <> lower cat) (Hcat : In (lower cat) (map fst (k_ids d))).
Let newid := catobj_name cat obj.

Lemma change_category_item : itemdef t -> tget a_object t = Some (VStr obj) -> ~ In (lower newid) (map fst (k_blocks d)) -> lower x <> lower cat ->
  exists d' t', change_category x cat d = (d', Ret newid) /\ in_order d' /\ locked d'
    /\ changed [(a_def, VStr newid); (a_category, VStr cat)] t t'
    /\ (forall k s, says d' k s <-> k = lower newid /\ s = t' \/ k <> lower newid /\ k <> lower x /\ says d k s)
    /\ (forall k p, within d' k p <-> k = lower newid /\ p = Some (lower cat) \/ k <> lower newid /\ k <> lower x /\ exists q, within d k q /\ p = follow (lower x) (lower newid) q).
Proof.
  intros Hi Ho Hn Nx. apply (says_iff d O) in S as (I & ov & E). apply isid_iff in Hcat. apply is_item_iff in Hi.
  unfold change_category. rewrite (table_ok d O x t ov E). cbn [look]. rewrite Hc. rewrite eqb_diff by exact Nc.
  unfold k_has. unfold isid in Hcat. rewrite Hcat. fold (isid d (lower cat)) in Hcat. cbn [negb].
  destruct (flags_step true d O) as (d1 & E1 & O1 & B1 & C1 & D1 & F1). rewrite E1. cbn [then_].
  assert (E' : blk d1 (lower x) = Some (t, true)) by (rewrite B1, E, I; reflexivity).
  rewrite (item_ok d1 O1 x a_object t true _ E' Ho). cbn [look].
  destruct (set_step x a_category (VStr cat) d1 t true O1 E') as (d2 & E2 & O2 & B2 & C2 & D2 & F2); [now right|].
  rewrite E2. cbn [then_]. rewrite Hi. cbn [as_text look]. fold newid.
  destruct (set_step x a_def (VStr newid) d2 (dset str_eqb (lower a_category) (VStr cat) t) true O2) as (d3 & E3 & O3 & B3 & C3 & D3 & F3).
  { rewrite B2, eqb_same. reflexivity. } { now right. }
  rewrite E3. cbn [then_].
  set (t' := dset str_eqb (lower a_def) (VStr newid) (dset str_eqb (lower a_category) (VStr cat) t)) in *.
  assert (Nxn : lower x <> lower newid). { intros X. apply Hn. rewrite <- X. now apply isid_blk. }
  destruct (rename_step x newid d3 O3) as (e & i & Ee & Ei & d4 & E4 & O4 & B4 & C4 & D4).
  { now rewrite D3, D2, D1. }
  { apply blk_none. rewrite B3, B2, B1. rewrite eqb_diff by congruence. apply blk_none in Hn. now rewrite Hn. }
  { apply catobj_not_nil. }
  rewrite E4. cbn [then_]. rewrite B3, eqb_same in Ee. injection Ee as <-.
  assert (Ncn : lower cat <> lower newid). { intros X. apply Hn. rewrite <- X. now apply isid_blk. }
  destruct (parent_step cat newid d4 O4) as (d5 & i5 & Ei5 & E5 & O5 & B5 & C5 & D5).
  { apply isid_blk; [exact O4|]. rewrite D4, D3, D2, D1. rewrite eqb_diff by exact Ncn. rewrite eqb_diff by congruence. exact Hcat. }
  { apply (blk_some d4 O4). rewrite B4, eqb_same. eauto. }
  rewrite E5. cbn [then_].
  destruct (flags_step false d5 O5) as (d6 & E6 & O6 & B6 & C6 & D6 & F6). rewrite E6. cbn [then_].
  exists d6, t'. split; [reflexivity|]. split; [exact O6|]. split; [eapply locked_of; [exact O5|exact O6| |]; auto|].
  split; [|split].
  - split.
    + intros a v [[= <- <-]|[[= <- <-]|[]]]; unfold t'; rewrite !tget_set; reflexivity.
    + intros b Nb. unfold t'. rewrite !tget_set. rewrite eqb_diff by (intros X; apply Nb; left; symmetry; exact X).
      rewrite eqb_diff by (intros X; apply Nb; right; left; symmetry; exact X). reflexivity.
  - intros k s. rewrite (says_iff d6 O6), (says_iff d O), D6, D5, D4, D3, D2, D1, B6, B5, B4, B3, B2, B1.
    destruct (str_eqb_spec k (lower newid)) as [->|N1].
    + split; [intros (_ & o & [= <- _]); left; auto|]. intros [(_ & ->)|(X & _)]; [|contradiction]. split; [reflexivity|eauto].
    + destruct (str_eqb_spec k (lower x)) as [->|N2].
      * split; [intros (X & _); discriminate|]. intros [(X & _)|(_ & X & _)]; contradiction.
      * split.
        -- intros (A & o & B). right. split; [exact N1|]. split; [exact N2|]. split; [exact A|]. destruct (blk d k) as [(t0, o0)|]; [|discriminate]. injection B as <- _. eauto.
        -- intros [(X & _)|(_ & _ & A & o & B)]; [contradiction|]. split; [exact A|]. rewrite B. eauto.
  - intros k p. rewrite (within_chd d6 k p O6), C6, C5, C4, C3, C2, C1.
    destruct (str_eqb_spec k (lower newid)) as [->|N1].
    + split.
      * intros (e & [= <-] & P). left. split; [reflexivity|]. now rewrite <- P.
      * intros [(_ & ->)|(X & _)]; [|contradiction]. eexists. split; reflexivity.
    + destruct (str_eqb_spec k (lower x)) as [->|N2].
      * split; [intros (e & X & _); discriminate|]. intros [(X & _)|(_ & X & _)]; contradiction.
      * split.
        -- intros (e & X & P). right. split; [exact N1|]. split; [exact N2|]. destruct (chd d k) as [e0|] eqn:Q; [|discriminate]. injection X as <-.
           exists (pc_parent e0). split; [apply within_chd; [exact O|]; eauto|]. rewrite <- P. apply follow_moved.
        -- intros [(X & _)|(_ & _ & q & W & ->)]; [contradiction|]. apply within_chd in W as (e0 & Q & <-); [|exact O]. rewrite Q. cbn [option_map].
           eexists. split; [reflexivity|]. apply follow_moved.
Qed.
(** A category keeps its name. *)
Lemma change_category_category : ~ itemdef t -> (exists v, tget a_object t = Some v) ->
  exists d' t', change_category x cat d = (d', Ret x) /\ in_order d' /\ locked d'
    /\ changed [(a_category, VStr cat)] t t'
    /\ (forall k s, says d' k s <-> k = lower x /\ s = t' \/ k <> lower x /\ says d k s)
    /\ (forall k p, within d' k p <-> k = lower x /\ p = Some (lower cat) \/ k <> lower x /\ within d k p).
Proof.
  intros Hi (v & Ho). apply (says_iff d O) in S as (I & ov & E). apply isid_iff in Hcat. rewrite <- is_item_iff in Hi. apply not_true_is_false in Hi.
  unfold change_category. rewrite (table_ok d O x t ov E). cbn [look]. rewrite Hc. rewrite eqb_diff by exact Nc.
  unfold k_has. unfold isid in Hcat. rewrite Hcat. fold (isid d (lower cat)) in Hcat. cbn [negb].
  destruct (flags_step true d O) as (d1 & E1 & O1 & B1 & C1 & D1 & F1). rewrite E1. cbn [then_].
  assert (E' : blk d1 (lower x) = Some (t, true)) by (rewrite B1, E, I; reflexivity).
  rewrite (item_ok d1 O1 x a_object t true _ E' Ho). cbn [look].
  destruct (set_step x a_category (VStr cat) d1 t true O1 E') as (d2 & E2 & O2 & B2 & C2 & D2 & F2); [now right|].
  rewrite E2. cbn [then_]. rewrite Hi. cbn [then_].
  destruct (parent_step cat x d2 O2) as (d5 & i5 & Ei5 & E5 & O5 & B5 & C5 & D5).
  { apply isid_blk; [exact O2|]. now rewrite D2, D1. }
  { apply isid_blk; [exact O2|]. now rewrite D2, D1. }
  rewrite E5. cbn [then_].
  destruct (flags_step false d5 O5) as (d6 & E6 & O6 & B6 & C6 & D6 & F6). rewrite E6. cbn [then_].
  set (t' := dset str_eqb (lower a_category) (VStr cat) t) in *.
  exists d6, t'. split; [reflexivity|]. split; [exact O6|]. split; [eapply locked_of; [exact O5|exact O6| |]; auto|].
  split; [|split].
  - split.
    + intros a w [[= <- <-]|[]]; unfold t'; rewrite !tget_set; reflexivity.
    + intros b Nb. unfold t'. rewrite !tget_set. rewrite eqb_diff by (intros X; apply Nb; left; symmetry; exact X). reflexivity.
  - intros k s. rewrite (says_iff d6 O6), (says_iff d O), D6, D5, D2, D1, B6, B5, B2, B1.
    destruct (str_eqb_spec k (lower x)) as [->|N2].
    + split; [intros (_ & o & [= <- _]); left; auto|]. intros [(_ & ->)|(X & _)]; [|contradiction]. split; [exact I|eauto].
    + split.
      * intros (A & o & B). right. split; [exact N2|]. split; [exact A|]. destruct (blk d k) as [(t0, o0)|]; [|discriminate]. injection B as <- _. eauto.
      * intros [(X & _)|(_ & A & o & B)]; [contradiction|]. split; [exact A|]. rewrite B. eauto.
  - intros k p. rewrite (within_chd d6 k p O6), (within_chd d k p O), C6, C5, C2, C1.
    destruct (str_eqb_spec k (lower x)) as [->|N2].
    + split; [intros (e & [= <-] & P); left; auto|]. intros [(_ & ->)|(X & _)]; [|contradiction]. eexists. split; reflexivity.
    + split; [intros H; right; auto|]. intros [(X & _)|(_ & H)]; [contradiction|exact H].
Qed.
End ChangeCategory.
