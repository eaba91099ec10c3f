(** Proofs about looking over all blocks of a collection. *)
From Coq Require Import String Ascii List NArith ZArith PeanoNat Bool Lia Permutation.
From Verif Require Import PyBase PyFacts StarBlockModel LoopModel LoopSpec LoopProofs CollectionModel CollectionSpec CollectionProofs CollectionProofs2 CollectionProofs3 SurveyModel SurveySpec.
Import ListNotations.
Open Scope list_scope.
Open Scope nat_scope.

(** [out] extends [acc] with values of [vs], all of which are then there. *)
Definition grown (acc vs out : list value) : Prop :=
  (exists more, out = acc ++ more /\ forall v, In v more -> In v vs) /\
  (forall v, In v vs -> exists x, In x out /\ (x = v \/ same_value x v)) /\
  (all_different acc -> all_different out).

Lemma different_snoc l v : all_different l -> (forall x, In x l -> ~ same_value x v) -> all_different (l ++ [v]).
Proof.
  intros Hd Hv i j a b Hij Ha Hb.
  assert (j < length (l ++ [v])) as Hj by (apply nth_error_Some; congruence). rewrite app_length in Hj. cbn [length] in Hj.
  rewrite nth_error_app1 in Ha by lia. destruct (Nat.eq_dec j (length l)) as [->|Hn].
  - rewrite nth_error_app2, Nat.sub_diag in Hb by lia. injection Hb as <-. apply Hv. exact (nth_error_In l i Ha).
  - rewrite nth_error_app1 in Hb by lia. exact (Hd i j a b Hij Ha Hb).
Qed.

Lemma add_new_grown acc v : grown acc [v] (add_new acc v).
Proof.
  unfold add_new. destruct (existsb (fun x => py_eq x v) acc) eqn:E.
  - apply existsb_exists in E. destruct E as (x & Hx & E). apply py_eq_spec in E. split; [|split].
    + exists []. rewrite app_nil_r. split; [reflexivity|]. intros w [].
    + intros w [<-|[]]. exists x. auto.
    + auto.
  - split; [|split].
    + exists [v]. auto.
    + intros w [<-|[]]. exists v. split; [apply in_app_iff; right; now left|now left].
    + intros Hd. apply different_snoc; [exact Hd|]. intros x Hx H. apply py_eq_spec in H.
      assert (existsb (fun x => py_eq x v) acc = true) by (apply existsb_exists; eauto). congruence.
Qed.

Lemma grown_nil acc : grown acc [] acc.
Proof. split; [exists []; rewrite app_nil_r; split; [reflexivity|intros v []]|]. split; [intros v []|auto]. Qed.
Lemma grown_trans acc vs mid ws out : grown acc vs mid -> grown mid ws out -> grown acc (vs ++ ws) out.
Proof.
  intros ((m1 & -> & A1) & A2 & A3) ((m2 & -> & B1) & B2 & B3). split; [|split].
  - exists (m1 ++ m2). rewrite app_assoc. split; [reflexivity|]. intros v Hv. apply in_app_iff in Hv. apply in_app_iff. destruct Hv; auto.
  - intros v Hv. apply in_app_iff in Hv. destruct Hv as [Hv|Hv]; [|now apply B2].
    destruct (A2 v Hv) as (x & Hx & H). exists x. split; [apply in_app_iff; now left|exact H].
  - auto.
Qed.

Lemma fold_new_grown l : forall acc, grown acc l (fold_left add_new l acc).
Proof.
  induction l as [|v l IH]; intros acc; cbn [fold_left]; [apply grown_nil|].
  exact (grown_trans acc [v] (add_new acc v) l _ (add_new_grown acc v) (IH _)).
Qed.

(** The values that one item contributes. *)
Definition parts (v : value) : list value := match v with VNone => [] | VList l | VSL l => l | _ => [v] end.
Lemma add_value_grown acc v : grown acc (parts v) (add_value acc v).
Proof. destruct v; cbn [parts add_value]; try apply add_new_grown; try apply fold_new_grown. Qed.
Lemma fold_value_grown l : forall acc, grown acc (flat_map parts l) (fold_left add_value l acc).
Proof.
  induction l as [|v l IH]; intros acc; cbn [fold_left flat_map]; [apply grown_nil|].
  exact (grown_trans _ _ _ _ _ (add_value_grown acc v) (IH _)).
Qed.

Lemma parts_spec v w : In v (parts w) <-> (v = w /\ w <> VNone /\ forall l, w <> VList l /\ w <> VSL l) \/ exists l, (w = VList l \/ w = VSL l) /\ In v l.
Proof.
  destruct w; cbn [parts In]; split.
  all: try (intros [<-|[]]; left; split; [reflexivity|split; [discriminate|intros; split; discriminate]]).
  all: try (intros [(-> & _ & _)|(l' & [E|E] & _)]; [now left|discriminate E|discriminate E]).
  - intros [].
  - intros [(_ & E & _)|(l' & [E|E] & _)]; [now apply E|discriminate E|discriminate E].
  - intros H. right. eauto.
  - intros [(_ & _ & E)|(l' & [E|E] & H)]; [now destruct (E l)|injection E as ->; exact H|discriminate E].
  - intros H. right. eauto.
  - intros [(_ & _ & E)|(l' & [E|E] & H)]; [now destruct (E l)|discriminate E|injection E as ->; exact H].
Qed.

Section Coll.
Context (c : coll).
Hypothesis W : CWF c.
Hypothesis V : visible_ok c.

Lemma vis_get k b : In k (c_vis c) -> (c_get k c = Ret b <-> In (k, b) (c_dict c)).
Proof. intros Hk. rewrite (c_get_spec c k b W). rewrite (cw_low c W k (visible_key c k W V Hk)). tauto. Qed.
Lemma vis_block k : In k (c_vis c) -> exists b, In (k, b) (c_dict c).
Proof.
  intros Hk. pose proof (visible_key c k W V Hk) as H. apply in_map_iff in H. destruct H as ([k' b] & E & H). cbn [fst] in E. subst k'. eauto.
Qed.

Lemma raw_spec name keys : (forall k, In k keys -> In k (c_vis c)) ->
  (forall l, raw_values name keys c = Ret l -> forall v, In v (flat_map parts l) <->
     exists k b w, In k keys /\ In (k, b) (c_dict c) /\ has_key name b = true /\ get_item name b = Ret w /\ In v (parts w)) /\
  (readable c -> exists l, raw_values name keys c = Ret l).
Proof.
  induction keys as [|k keys IH]; intros Hk; cbn [raw_values].
  - split; [|intros _; eauto]. intros l E. injection E as <-. cbn [flat_map]. intros v. split; [intros []|]. intros (k & b & w & [] & _).
  - destruct (IH (fun x Hx => Hk x (or_intror Hx))) as [IH1 IH2].
    destruct (vis_block k (Hk k (or_introl eq_refl))) as (b & Hb).
    rewrite (proj2 (vis_get k b (Hk k (or_introl eq_refl))) Hb). cbn [obind].
    assert (forall b', In (k, b') (c_dict c) -> b' = b) as Hu.
    { intros b' Hb'. assert (c_get k c = Ret b') as E1 by (apply vis_get; [apply Hk; now left|exact Hb']).
      assert (c_get k c = Ret b) as E2 by (apply vis_get; [apply Hk; now left|exact Hb]). congruence. }
    split.
    + intros l E. unfold b_get in E. destruct (has_key name b) eqn:Hh.
      * destruct (get_item name b) as [w|e] eqn:Eg; [|discriminate E]. cbn [obind] in E.
        destruct (raw_values name keys c) as [l'|e]; [|discriminate E]. cbn [obind] in E. injection E as <-.
        cbn [flat_map]. intros v. rewrite in_app_iff, (IH1 l' eq_refl). split.
        -- intros [H|(k' & b' & w' & H1 & H2)]; [exists k, b, w; split; [now left|auto]|exists k', b', w'; split; [now right|exact H2]].
        -- intros (k' & b' & w' & [<-|H1] & H2 & H3 & H4 & H5); [left|right; exists k', b', w'; auto].
           rewrite (Hu b' H2) in H4. congruence.
      * cbn [obind] in E. destruct (raw_values name keys c) as [l'|e]; [|discriminate E]. cbn [obind] in E. injection E as <-.
        cbn [flat_map parts app]. intros v. rewrite (IH1 l' eq_refl). split.
        -- intros (k' & b' & w' & H1 & H2). exists k', b', w'. split; [now right|exact H2].
        -- intros (k' & b' & w' & [<-|H1] & H2 & H3 & H4); [|exists k', b', w'; auto]. rewrite (Hu b' H2) in H3. congruence.
    + intros R. destruct (IH2 R) as [l' ->]. unfold b_get. destruct (has_key name b) eqn:Hh.
      * destruct (R k b name (Hk k (or_introl eq_refl)) Hb Hh) as [w ->]. cbn [obind]. eauto.
      * cbn [obind]. eauto.
Qed.

Lemma get_all_spec name : readable c -> exists vs, get_all name c = Ret vs /\
  (forall v, In v vs -> occurs c name v) /\
  (forall v, occurs c name v -> exists x, In x vs /\ (x = v \/ same_value x v)) /\ all_different vs.
Proof.
  intros R. destruct (raw_spec name (c_vis c) (fun k H => H)) as [H1 H2]. destruct (H2 R) as [l E].
  unfold get_all, c_keys. rewrite E. cbn [obind]. eexists. split; [reflexivity|].
  pose proof (H1 l E) as Hp. destruct (fold_value_grown l []) as ((more & -> & G1) & G2 & G3). cbn [app] in *.
  assert (forall v, In v (flat_map parts l) <-> occurs c name v) as Ho.
  { intros v. rewrite Hp. unfold occurs. split; intros (k & b & w & A1 & A2 & A3 & A4 & A5); exists k, b, w; repeat (split; [assumption|]); now apply parts_spec. }
  split; [|split].
  - intros v Hv. now apply Ho, G1.
  - intros v Hv. apply G2. now apply Ho.
  - apply G3. intros i j a b _ Ha. destruct i; discriminate.
Qed.

Lemma items_spec : exists l, c_items c = Ret l /\ map fst l = c_vis c /\ forall k b, In (k, b) l -> In (k, b) (c_dict c).
Proof.
  unfold c_items, c_keys. assert (forall keys, (forall k, In k keys -> In k (c_vis c)) ->
    exists l, items_of keys c = Ret l /\ map fst l = keys /\ forall k b, In (k, b) l -> In (k, b) (c_dict c)) as H.
  { induction keys as [|k keys IH]; intros Hk; cbn [items_of].
    - exists []. split; [reflexivity|]. split; [reflexivity|]. intros k b [].
    - destruct (vis_block k (Hk k (or_introl eq_refl))) as (b & Hb).
      rewrite (proj2 (vis_get k b (Hk k (or_introl eq_refl))) Hb). cbn [obind].
      destruct (IH (fun x Hx => Hk x (or_intror Hx))) as (l & -> & Hm & Hl). cbn [obind]. exists ((k, b) :: l).
      split; [reflexivity|]. split; [cbn [map fst]; congruence|]. intros k' b' [E|H]; [|now apply Hl]. now injection E as <- <-. }
  apply H. auto.
Qed.

Lemma first_spec : match c_vis c with
  | [] => first_block c = Ret None
  | k :: _ => exists b, In (k, b) (c_dict c) /\ first_block c = Ret (Some b) end.
Proof.
  unfold first_block, c_keys. destruct (c_vis c) as [|k r] eqn:E; [reflexivity|].
  assert (In k (c_vis c)) as Hk by (rewrite E; now left). destruct (vis_block k Hk) as (b & Hb). exists b. split; [exact Hb|].
  now rewrite (proj2 (vis_get k b Hk) Hb).
Qed.
End Coll.

Lemma checklengths_spec m c : checklengths m c = Raise StarErr /\ (exists k p, In (k, p) (c_child c) /\ (m < Z.of_nat (length (pc_id p)))%Z)
  \/ checklengths m c = Ret tt /\ forall k p, In (k, p) (c_child c) -> (Z.of_nat (length (pc_id p)) <= m)%Z.
Proof.
  unfold checklengths. destruct (existsb _ _) eqn:E; [left|right]; (split; [reflexivity|]).
  - apply existsb_exists in E. destruct E as ([k p] & H & L). exists k, p. split; [exact H|]. now apply Z.ltb_lt.
  - intros k p H. destruct (Z.le_gt_cases (Z.of_nat (length (pc_id p))) m) as [L|L]; [exact L|].
    assert (existsb (fun kp : str * pc => (m <? Z.of_nat (length (pc_id (snd kp))))%Z) (c_child c) = true) as X; [|congruence].
    apply existsb_exists. exists (k, p). split; [exact H|]. now apply Z.ltb_lt.
Qed.
Lemma checknames_spec m b : checknamelengths b m = Raise StarErr /\ (0 <= m)%Z /\ (exists k, In k (b_keys b) /\ (m < Z.of_nat (length k))%Z)
  \/ checknamelengths b m = Ret tt /\ ((m < 0)%Z \/ forall k, In k (b_keys b) -> (Z.of_nat (length k) <= m)%Z).
Proof.
  unfold checknamelengths. destruct (Z.ltb_spec m 0) as [L|L]; [right; auto|]. destruct (existsb _ _) eqn:E; [left|right]; (split; [reflexivity|]).
  - split; [exact L|]. apply existsb_exists in E. destruct E as (k & H & Lk). exists k. split; [exact H|]. now apply Z.ltb_lt.
  - right. intros k H. destruct (Z.le_gt_cases (Z.of_nat (length k)) m) as [Lk|Lk]; [exact Lk|].
    assert (existsb (fun k => (m <? Z.of_nat (length k))%Z) (b_keys b) = true) as X; [|congruence].
    apply existsb_exists. exists k. split; [exact H|]. now apply Z.ltb_lt.
Qed.

Lemma parents_fail p r c : exists e, before_checks (p :: r) c = Raise e.
Proof.
  unfold before_checks. destruct (c_keys (set_scope Instance c)); [eauto|]. cbn [all_parents].
  set (c' := set_scope Dictionary (set_scope Instance c)). unfold one_parent. destruct (c_has p c'); [cbn [obind]; eauto|].
  destruct (get_all p c') as [[|v vs]|e]; cbn [obind]; eauto. destruct (c_get p c'); cbn [obind]; eauto.
Qed.
