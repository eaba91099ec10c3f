(** Block collections: the parent table as a forest, deletion, child tests. *)
From Coq Require Import String Ascii List NArith ZArith Bool Permutation Lia Sorted.
From Verif Require Import PyBase PyFacts StarBlockModel CollectionModel CollectionSpec.
Import ListNotations.
Open Scope nat_scope.

Lemma smem_In k l : smem k l = true <-> In k l.
Proof. apply (mem_In str_eqb str_eqb_spec). Qed.
Lemma smem_false k l : smem k l = false <-> ~ In k l.
Proof. apply (mem_false str_eqb str_eqb_spec). Qed.

Lemma opt_eqb_spec a b : reflect (a = b) (opt_eqb a b).
Proof.
  destruct a as [x|], b as [y|]; cbn; try (constructor; congruence).
  destruct (str_eqb_spec x y); constructor; congruence.
Qed.

Lemma in_with_parent p t x : In x (with_parent p t) <-> exists i, In (x, PC i p) t.
Proof.
  unfold with_parent. rewrite in_map_iff. split.
  - intros ([y [i q]] & E & H). cbn in E. subst y. apply filter_In in H as [H1 H2]. cbn in H2.
    destruct (opt_eqb_spec q p) as [->|]; [eauto|discriminate].
  - intros (i & H). exists (x, PC i p). split; [reflexivity|]. apply filter_In. split; [assumption|].
    cbn. now destruct (opt_eqb_spec p p).
Qed.

Lemma with_parent_inside p c x : In x (with_parent (Some p) (c_child c)) <-> inside c p x.
Proof. apply in_with_parent. Qed.

Lemma NoDup_map_filter {A B} (f : A -> B) (g : A -> bool) l : NoDup (map f l) -> NoDup (map f (filter g l)).
Proof.
  induction l as [|a l IH]; cbn; [constructor|]. inversion 1; subst.
  destruct (g a); cbn; [|auto]. constructor; [|auto].
  intros H'. apply in_map_iff in H' as (b & E & Hb). apply filter_In in Hb as [Hb _].
  apply H2. rewrite <- E. now apply in_map.
Qed.

Section Forest.
  Variable c : coll.
  Hypothesis W : CWF c.

  Lemma table_NoDup : NoDup (map fst (c_child c)).
  Proof using W. eapply Permutation_NoDup; [symmetry; apply (cw_table _ W)|apply (cw_keys _ W)]. Qed.

  Lemma in_table x : In x (map fst (c_child c)) <-> In x (ckeys c).
  Proof using W.
    split; apply Permutation_in; [|symmetry]; apply (cw_table _ W).
  Qed.
  Lemma in_set x : In x (c_lower c) <-> In x (ckeys c).
  Proof using W.
    split; apply Permutation_in; [|symmetry]; apply (cw_set _ W).
  Qed.
  Lemma in_corder x : In x (c_order c) <-> In x (ckeys c).
  Proof using W.
    split; apply Permutation_in; [|symmetry]; apply (cw_order _ W).
  Qed.

  Lemma inside_child p x : inside c p x -> In x (ckeys c).
  Proof using W. intros (i & H). apply in_table. now apply (in_map fst) in H. Qed.

  Lemma entry_unique x e e' : In (x, e) (c_child c) -> In (x, e') (c_child c) -> e = e'.
  Proof using W.
    intros H H'.
    pose proof (dget_In_NoDup str_eqb str_eqb_spec _ _ _ table_NoDup H) as E.
    pose proof (dget_In_NoDup str_eqb str_eqb_spec _ _ _ table_NoDup H') as E'. congruence.
  Qed.

  Lemma inside_fun p q x : inside c p x -> inside c q x -> p = q.
  Proof using W. intros (i & H) (j & H'). pose proof (entry_unique _ _ _ H H'). congruence. Qed.

  Lemma root_not_inside x p : root c x -> ~ inside c p x.
  Proof using W. intros (i & H) (j & H'). pose proof (entry_unique _ _ _ H H'). congruence. Qed.

  Lemma below_keys p x : below c p x -> In p (ckeys c) /\ In x (ckeys c).
  Proof using W.
    induction 1 as [x H|x y H IH H'].
    - split; [eapply (cw_parents _ W); eauto|eapply inside_child; eauto].
    - split; [apply IH|eapply inside_child; eauto].
  Qed.

  Lemma below_linear a b x : below c a x -> below c b x -> a = b \/ below c a b \/ below c b a.
  Proof using W.
    intros H. revert b. induction H as [x H|x y H IH H']; intros b Hb.
    - destruct Hb as [x Hb|y x Hb Hy]; [left; eapply inside_fun; eauto|].
      rewrite (inside_fun _ _ _ H Hy). auto.
    - inversion Hb as [? Hb'|y' ? Hb' Hy]; subst.
      + rewrite (inside_fun _ _ _ Hb' H'). auto.
      + rewrite (inside_fun _ _ _ Hy H') in Hb'. auto.
  Qed.
End Forest.

Lemma below_trans c a b x : below c a b -> below c b x -> below c a x.
Proof.
  intros H. induction 1 as [x H'|x y H' IH H2]; [eapply below_more; eauto|].
  eapply below_more; eauto.
Qed.

Lemma below_left c a x : below c a x -> inside c a x \/ exists y, inside c a y /\ below c y x.
Proof.
  induction 1 as [x H|x y H IH H']; [auto|]. right.
  destruct IH as [IH|(z & H1 & H2)].
  - exists x. split; [assumption|]. now apply below_one.
  - exists z. split; [assumption|]. eapply below_more; eauto.
Qed.

Lemma below_ext c c' : (forall p x, inside c p x <-> inside c' p x) -> forall p x, below c p x <-> below c' p x.
Proof.
  intros E p x. split; induction 1.
  - apply below_one. now apply E.
  - eapply below_more; eauto. now apply E.
  - apply below_one. now apply E.
  - eapply below_more; eauto. now apply E.
Qed.

(** Removing keys everywhere. *)
Definition kept (D : list str) (k : str) : bool := negb (smem k D).
Definition prune (D : list str) (c : coll) : coll :=
  Coll (filter (fun kb => kept D (fst kb)) (c_dict c)) (filter (kept D) (c_lower c))
       (filter (fun kb => kept D (fst kb)) (c_child c)) (filter (kept D) (c_vis c))
       (filter (kept D) (c_order c)) (c_std c) (c_scope c) (c_uni c) (c_gram c).

Lemma kept_true D k : kept D k = true <-> ~ In k D.
Proof. unfold kept. rewrite negb_true_iff. apply smem_false. Qed.

Lemma map_fst_filter {V} (f : str -> bool) (d : list (str * V)) :
  map fst (filter (fun kb => f (fst kb)) d) = filter f (map fst d).
Proof. induction d as [|[k v] d IH]; cbn; [reflexivity|]. destruct (f k); cbn; congruence. Qed.

Lemma ckeys_prune D c : ckeys (prune D c) = filter (kept D) (ckeys c).
Proof. unfold ckeys. cbn. apply map_fst_filter. Qed.

Lemma filter_filter {A} (f g : A -> bool) l : filter f (filter g l) = filter (fun x => g x && f x) l.
Proof.
  induction l as [|a l IH]; cbn; [reflexivity|]. destruct (g a); cbn; [|assumption].
  destruct (f a); congruence.
Qed.

Lemma remove1_filter k D l :
  NoDup l -> remove1 str_eqb k (filter (kept D) l) = filter (kept (k :: D)) l.
Proof.
  intros H. rewrite (remove1_NoDup_filter str_eqb str_eqb_spec) by now apply NoDup_filter.
  rewrite filter_filter. apply filter_ext. intros a. unfold kept, smem. cbn [mem existsb].
  unfold mem. cbn [existsb].
  destruct (str_eqb_spec k a), (str_eqb_spec a k); subst; try congruence; cbn;
    destruct (existsb (str_eqb a) D); reflexivity.
Qed.

Lemma ddel_filter {V} k D (d : list (str * V)) :
  NoDup (map fst d) ->
  ddel str_eqb k (filter (fun kb => kept D (fst kb)) d) = filter (fun kb => kept (k :: D) (fst kb)) d.
Proof.
  induction d as [|[k' v] d IH]; cbn -[kept]; [reflexivity|]. inversion 1 as [|? ? H1 H2]; subst.
  assert (E : kept (k :: D) k' = kept D k' && negb (str_eqb k k')).
  { unfold kept, smem, mem. cbn [existsb].
    destruct (str_eqb_spec k k'), (str_eqb_spec k' k); subst; try congruence; cbn;
      destruct (existsb (str_eqb k') D); reflexivity. }
  rewrite E. destruct (kept D k') eqn:K; cbn [andb ddel].
  - destruct (str_eqb_spec k k') as [->|n]; cbn [negb].
    + symmetry. apply filter_ext_in. intros [a w] Ha. cbn.
      unfold kept, smem, mem. cbn [existsb]. destruct (str_eqb_spec a k') as [->|]; [|reflexivity].
      exfalso. apply H1. now apply (in_map fst) in Ha.
    + f_equal. now apply IH.
  - now apply IH.
Qed.

Lemma dget_filter {V} D k (d : list (str * V)) :
  dget str_eqb k (filter (fun kb => kept D (fst kb)) d) = if kept D k then dget str_eqb k d else None.
Proof.
  induction d as [|[k' v] d IH]; cbn -[kept]; [now destruct (kept D k)|].
  destruct (kept D k') eqn:K'; cbn [dget]; destruct (str_eqb_spec k k') as [->|n].
  - now rewrite K'.
  - exact IH.
  - rewrite IH. now rewrite K'.
  - exact IH.
Qed.

Lemma prune_inside D c p x : inside (prune D c) p x <-> inside c p x /\ ~ In x D.
Proof.
  unfold inside. cbn. split.
  - intros (i & H). apply filter_In in H as [H1 H2]. apply kept_true in H2. eauto.
  - intros ((i & H) & n). exists i. apply filter_In. split; [assumption|]. now apply kept_true.
Qed.

Lemma prune_nil c : prune [] c = c.
Proof.
  destruct c. unfold prune. cbn.
  f_equal; apply filter_all; reflexivity.
Qed.

Lemma del_one_prune k D c :
  CWF c -> NoDup (c_vis c) -> In k (ckeys c) -> In k (c_vis c) -> ~ In k D ->
  del_one k (prune D c) = (prune (k :: D) c, Ret tt).
Proof.
  intros W NV Hk Hv HD. apply kept_true in HD as K. unfold del_one.
  assert (E1 : dmem str_eqb k (c_dict (prune D c)) = true).
  { apply (dmem_In str_eqb str_eqb_spec). cbn. unfold dkeys. rewrite map_fst_filter. apply filter_In. auto. }
  rewrite E1. cbn [negb c_child set_dict].
  assert (E2 : dmem str_eqb k (c_child (prune D c)) = true).
  { apply (dmem_In str_eqb str_eqb_spec). cbn. unfold dkeys. rewrite map_fst_filter. apply filter_In.
    split; [|assumption]. now apply in_table. }
  cbn [prune c_child] in *. rewrite E2. cbn [negb c_vis set_child set_dict prune].
  assert (E3 : smem k (filter (kept D) (c_vis c)) = true) by (apply smem_In, filter_In; auto).
  rewrite E3. cbn [negb c_lower set_vis set_child set_dict prune].
  assert (E4 : smem k (filter (kept D) (c_lower c)) = true) by (apply smem_In, filter_In; split; [apply in_set|]; auto).
  rewrite E4. cbn [negb c_order set_lower set_vis set_child set_dict prune].
  assert (E5 : smem k (filter (kept D) (c_order c)) = true) by (apply smem_In, filter_In; split; [apply in_corder|]; auto).
  rewrite E5. cbn [negb]. unfold set_corder, set_lower, set_vis, set_child, set_dict, prune. cbn.
  rewrite !ddel_filter, !remove1_filter; auto.
  - eapply Permutation_NoDup; [symmetry; apply (cw_order _ W)|apply (cw_keys _ W)].
  - eapply Permutation_NoDup; [symmetry; apply (cw_set _ W)|apply (cw_keys _ W)].
  - now apply table_NoDup.
  - apply (cw_keys _ W).
Qed.

(** Deletion of a block takes away the block and everything below it. *)
Section Delete.
  Variable c : coll.
  Hypothesis W : CWF c.
  Hypothesis NV : NoDup (c_vis c).

  Definition closed (D : list str) : Prop := forall x y, In x D -> below c x y -> In y D.

  Lemma path_bound path k :
    NoDup path -> (forall a, In a path -> below c a k) -> In k (ckeys c) -> length path < length (ckeys c).
  Proof using W.
    intros N B K.
    assert (H : length (k :: path) <= length (ckeys c)).
    { apply NoDup_incl_length.
      - constructor; [|assumption]. intros Hk. eapply (cw_acyclic _ W), B, Hk.
      - intros x [<-|Hx]; [assumption|]. apply (below_keys _ W _ _ (B _ Hx)). }
    cbn in H. lia.
  Qed.

  Lemma children_prune D k : ~ In k D -> closed D ->
    NoDup (with_parent (Some k) (c_child (prune D c))) /\
    (forall x, In x (with_parent (Some k) (c_child (prune D c))) <-> inside c k x /\ ~ In x D).
  Proof using W.
    intros HD HC. split.
    - unfold with_parent. apply NoDup_map_filter. cbn. rewrite map_fst_filter. apply NoDup_filter. now apply table_NoDup.
    - intros x. rewrite with_parent_inside. apply prune_inside.
  Qed.

  Lemma c_get_prune D k : In k (ckeys c) -> ~ In k D -> exists b, c_get k (prune D c) = Ret b.
  Proof using W.
    intros Hk HD. unfold c_get. rewrite (cw_low _ W _ Hk).
    apply kept_true in HD as K. cbn [c_lower c_dict prune].
    replace (smem k (filter (kept D) (c_lower c))) with true
      by (symmetry; apply smem_In, filter_In; split; [now apply in_set|assumption]).
    rewrite dget_filter, K.
    destruct (dget str_eqb k (c_dict c)) as [b|] eqn:E; [eauto|].
    apply (dget_None str_eqb str_eqb_spec) in E. contradiction.
  Qed.

  Lemma del_go_prune fuel : forall path k D,
    NoDup path -> (forall a, In a path -> below c a k) -> In k (ckeys c) ->
    length (ckeys c) <= fuel + length path ->
    closed D -> ~ In k D ->
    (forall x, x = k \/ below c k x -> In x (c_vis c)) ->
    exists D', del_go fuel k (prune D c) = (prune D' c, Ret tt) /\
               (forall x, In x D' <-> In x D \/ x = k \/ below c k x).
  Proof using W NV.
    induction fuel as [|f IH]; intros path k D N B K F C HD V.
    { pose proof (path_bound path k N B K). cbn in F. lia. }
    cbn [del_go]. destruct (c_get_prune D k K HD) as [b ->].
    rewrite (cw_low _ W _ K).
    destruct (children_prune D k HD C) as [N1 N2].
    set (l := with_parent (Some k) (c_child (prune D c))) in *. clearbody l.
    assert (L : exists D1, del_all (del_go f) l (prune D c) = (prune D1 c, Ret tt) /\
                closed D1 /\ (forall x, In x D1 <-> In x D \/ exists y, In y l /\ (x = y \/ below c y x))).
    { assert (HIn : forall x, In x l -> inside c k x /\ ~ In x D) by (intros; now apply N2).
      clear N2. revert D C HD HIn. induction l as [|ch l IHl]; intros D C HD HIn.
      - exists D. split; [reflexivity|]. split; [assumption|]. intros x. split; [auto|].
        intros [H|(y & [] & _)]. assumption.
      - inversion N1 as [|? ? N3 N4]; subst. cbn [del_all].
        destruct (HIn ch (or_introl eq_refl)) as [I1 I2].
        assert (KCH : In ch (ckeys c)) by (eapply inside_child; eauto).
        destruct (IH (k :: path) ch D) as (D1 & E1 & E2).
        + constructor; [|assumption]. intros Hk. eapply (cw_acyclic _ W), B, Hk.
        + intros a [<-|Ha]; [now apply below_one|]. eapply below_more; [apply B|]; eauto.
        + assumption.
        + cbn [length]. lia.
        + assumption.
        + assumption.
        + intros x [->|Hx]; apply V; right; [now apply below_one|].
          eapply below_trans; [apply below_one; eassumption|assumption].
        + rewrite E1.
          assert (C1 : closed D1).
          { intros x y Hx Hy. apply E2 in Hx as [Hx|[->|Hx]]; apply E2.
            - left. eapply C; eauto.
            - auto.
            - right; right. eapply below_trans; eauto. }
          destruct (IHl N4 D1) as (D2 & E3 & C2 & E4).
          * assumption.
          * intros H. apply E2 in H as [H|[->|H]]; [contradiction| |].
            -- apply (cw_acyclic _ W ch). now apply below_one.
            -- apply (cw_acyclic _ W ch). eapply below_more; eauto.
          * intros x Hx. destruct (HIn x (or_intror Hx)) as [J1 J2]. split; [assumption|].
            intros H. apply E2 in H as [H|[->|H]]; [contradiction|contradiction|].
            destruct H as [x H|y x H H'].
            -- apply (cw_acyclic _ W ch). pose proof (inside_fun c W _ _ _ H J1). subst. now apply below_one.
            -- pose proof (inside_fun c W _ _ _ H' J1). subst y. apply (cw_acyclic _ W k).
               eapply below_trans; [apply below_one; exact I1|assumption].
          * exists D2. split; [assumption|]. split; [assumption|].
            intros x. rewrite E4, E2. split.
            -- intros [[H|H]|(y & Hy & H)]; [auto| |].
               ++ right. exists ch. cbn. tauto.
               ++ right. exists y. cbn. tauto.
            -- intros [H|(y & [<-|Hy] & H)]; [auto| |].
               ++ left; right. tauto.
               ++ right. exists y. auto. }
    destruct L as (D1 & E1 & C1 & E2). rewrite E1.
    exists (k :: D1). split.
    - apply del_one_prune; auto.
      intros H. apply E2 in H as [H|(y & Hy & H)]; [contradiction|].
      apply N2 in Hy as [Hy _]. apply (cw_acyclic _ W k).
      destruct H as [->|H]; [now apply below_one|].
      eapply below_trans; [apply below_one; exact Hy|assumption].
    - intros x. cbn. rewrite E2. split.
      + intros [<-|[H|(y & Hy & H)]]; [auto|auto|].
        apply N2 in Hy as [Hy _]. right; right. destruct H as [->|H]; [now apply below_one|].
        eapply below_trans; [apply below_one; exact Hy|assumption].
      + intros [H|[->|H]]; [auto|auto|]. right.
        destruct (smem x D) eqn:M; [left; now apply smem_In|]. apply smem_false in M.
        right. destruct (below_left _ _ _ H) as [H'|(y & H1 & H2)].
        * exists x. split; [apply N2; auto|auto].
        * exists y. split; [|auto]. apply N2. split; [assumption|]. intros Hy. apply M. eapply C; eauto.
  Qed.

  Lemma del_ok k :
    In (lower k) (ckeys c) -> (forall x, x = lower k \/ below c (lower k) x -> In x (c_vis c)) ->
    exists D, c_del k c = (prune D c, Ret tt) /\ (forall x, In x D <-> x = lower k \/ below c (lower k) x).
  Proof using W NV.
    intros K V. unfold c_del.
    assert (E : forall f, del_go f k c = del_go f (lower k) c).
    { intros [|f]; [reflexivity|]. cbn [del_go]. unfold c_get. now rewrite lower_idem. }
    rewrite E.
    destruct (del_go_prune (Datatypes.S (length (c_child c))) [] (lower k) []) as (D & E1 & E2); auto.
    - constructor.
    - cbn. contradiction.
    - cbn. rewrite <- (map_length fst), (Permutation_length (cw_table _ W)). lia.
    - intros x y [].
    - rewrite prune_nil in E1. exists D. split; [exact E1|]. intros x. rewrite E2. cbn. tauto.
  Qed.

  Lemma prune_CWF D : closed D -> CWF (prune D c).
  Proof using W.
    intros C. constructor.
    - rewrite ckeys_prune. apply NoDup_filter, (cw_keys _ W).
    - intros k. rewrite ckeys_prune. intros H. apply filter_In in H. now apply (cw_low _ W).
    - rewrite ckeys_prune. cbn. apply filter_perm, (cw_set _ W).
    - rewrite ckeys_prune. cbn. rewrite map_fst_filter. apply filter_perm, (cw_table _ W).
    - rewrite ckeys_prune. cbn. apply filter_perm, (cw_order _ W).
    - intros p x H. apply prune_inside in H as [H n]. rewrite ckeys_prune. apply filter_In.
      split; [eapply (cw_parents _ W); eauto|]. apply kept_true. intros Hp. apply n.
      eapply C; [exact Hp|now apply below_one].
    - assert (B : forall p x, below (prune D c) p x -> below c p x).
      { induction 1 as [x H|x y H IH H']; [apply below_one|eapply below_more; [exact IH|]]; now apply prune_inside in H || now apply prune_inside in H'. }
      intros x H. eapply (cw_acyclic _ W). eauto.
  Qed.
End Delete.

(** Child tests are the transitive closure. *)
Section Children.
  Variable c : coll.
  Hypothesis W : CWF c.

  Lemma any_of_ret f l : (forall x, In x l -> exists t, f x = Ret t) ->
    exists t, any_of f l = Ret t /\ (t = true <-> exists x, In x l /\ f x = Ret true).
  Proof.
    induction l as [|x l IH]; intros H.
    - exists false. split; [reflexivity|]. split; [discriminate|]. intros (x & [] & _).
    - cbn. destruct (H x (or_introl eq_refl)) as [t Ht]. rewrite Ht. cbn [obind]. destruct t.
      + exists true. split; [reflexivity|]. split; [|reflexivity]. intros _. exists x. auto.
      + destruct IH as (t & E & E'); [intros; apply H; now right|]. exists t. split; [assumption|].
        rewrite E'. split; intros (y & Hy & F); [exists y; cbn; auto|].
        destruct Hy as [<-|Hy]; [congruence|]. exists y. auto.
  Qed.

  Lemma child_go_below fuel : forall path p x,
    NoDup path -> (forall a, In a path -> below c a p) -> In p (ckeys c) ->
    length (ckeys c) <= fuel + length path ->
    exists t, child_go fuel (c_child c) p x = Ret t /\ (t = true <-> below c p (lower x)).
  Proof using W.
    induction fuel as [|f IH]; intros path p x N B K F.
    { pose proof (path_bound c W path p N B K). cbn in F. lia. }
    cbn [child_go]. rewrite (cw_low _ W _ K).
    destruct (smem (lower x) (with_parent (Some p) (c_child c))) eqn:M.
    - exists true. split; [reflexivity|]. split; [|reflexivity]. intros _.
      apply below_one, with_parent_inside, smem_In, M.
    - apply smem_false in M. rewrite with_parent_inside in M.
      assert (S : forall ch, In ch (with_parent (Some p) (c_child c)) ->
        exists t, child_go f (c_child c) ch x = Ret t /\ (t = true <-> below c ch (lower x))).
      { intros ch Hc. apply with_parent_inside in Hc. apply (IH (p :: path)).
        - constructor; [|assumption]. intros Hk. eapply (cw_acyclic _ W), B, Hk.
        - intros a [<-|Ha]; [now apply below_one|]. eapply below_more; [apply B|]; eauto.
        - eapply inside_child; eauto.
        - cbn [length]. lia. }
      destruct (any_of_ret (fun ch => child_go f (c_child c) ch x) (with_parent (Some p) (c_child c)))
        as (t & E & E'); [intros ch Hc; destruct (S ch Hc) as (t & E & _); eauto|].
      exists t. split; [assumption|]. rewrite E'. split.
      + intros (ch & Hc & E2). destruct (S ch Hc) as (t' & E3 & E4). rewrite E2 in E3.
        injection E3 as <-. apply with_parent_inside in Hc.
        eapply below_trans; [apply below_one; exact Hc|]. now apply E4.
      + intros H. destruct (below_left _ _ _ H) as [H'|(y & H1 & H2)]; [contradiction|].
        exists y. apply with_parent_inside in H1. split; [assumption|].
        destruct (S y H1) as (t' & E3 & E4). rewrite E3. f_equal. now apply E4.
  Qed.

  Lemma is_child_ok p x :
    exists t, is_child_of_parent p x c = Ret t /\ (t = true <-> below c (lower p) (lower x)).
  Proof using W.
    unfold is_child_of_parent.
    assert (L : length (c_child c) = length (ckeys c)).
    { now rewrite <- (map_length fst), (Permutation_length (cw_table _ W)). }
    destruct (smem (lower p) (ckeys c)) eqn:M.
    - apply smem_In in M.
      assert (E : forall f, child_go f (c_child c) p x = child_go f (c_child c) (lower p) x).
      { intros [|f]; [reflexivity|]. cbn [child_go]. now rewrite lower_idem. }
      rewrite E. apply (child_go_below _ []); [constructor|intros a []|assumption|cbn; lia].
    - apply smem_false in M. cbn [child_go].
      assert (E : with_parent (Some (lower p)) (c_child c) = []).
      { destruct (with_parent (Some (lower p)) (c_child c)) as [|y l] eqn:E; [reflexivity|].
        exfalso. apply M. eapply (cw_parents _ W). apply with_parent_inside. rewrite E. now left. }
      rewrite E. cbn. exists false. split; [reflexivity|]. split; [discriminate|].
      intros H. exfalso. apply M, (below_keys _ W _ _ H).
  Qed.

  Lemma filter_ok_spec {A} (f : A -> outcome bool) (P : A -> Prop) l :
    (forall x, In x l -> exists t, f x = Ret t /\ (t = true <-> P x)) ->
    exists keep : A -> bool, filter_ok f l = Ret (filter keep l) /\ forall x, In x l -> (keep x = true <-> P x).
  Proof.
    intros H. exists (fun x => match f x with Ret t => t | Raise _ => false end). split.
    - induction l as [|x l IH]; [reflexivity|]. cbn. destruct (H x (or_introl eq_refl)) as (t & E & _).
      rewrite E. cbn [obind]. rewrite IH by (intros; apply H; now right). reflexivity.
    - intros x Hx. destruct (H x Hx) as (t & E & E'). now rewrite E.
  Qed.
End Children.

Lemma insert_sorted_perm x l : Permutation (insert_sorted x l) (x :: l).
Proof.
  induction l as [|y l IH]; [reflexivity|]. cbn. destruct (str_leb x y); [reflexivity|].
  rewrite IH. apply perm_swap.
Qed.
Lemma sort_perm l : Permutation (sort_strs l) l.
Proof. induction l as [|x l IH]; [reflexivity|]. cbn. now rewrite insert_sorted_perm, IH. Qed.
Lemma str_leb_total a : forall b, str_leb a b = true \/ str_leb b a = true.
Proof.
  induction a as [|x a IH]; intros [|y b]; cbn; auto.
  destruct (N.ltb_spec x y), (N.ltb_spec y x), (N.eqb_spec x y), (N.eqb_spec y x); cbn; auto; subst; try lia.
Qed.
Lemma insert_sorted_sorted x l : LocallySorted (fun a b => str_leb a b = true) l ->
  LocallySorted (fun a b => str_leb a b = true) (insert_sorted x l).
Proof.
  induction l as [|y l IH]; intros H; cbn; [constructor|].
  destruct (str_leb x y) eqn:E; [now constructor|].
  assert (E' : str_leb y x = true) by (destruct (str_leb_total x y); congruence).
  destruct l as [|z l]; cbn in *; [now constructor; [constructor|]|].
  inversion H; subst. specialize (IH H2).
  destruct (str_leb x z); constructor; auto.
Qed.
Lemma sort_sorted l : LocallySorted (fun a b => str_leb a b = true) (sort_strs l).
Proof. induction l as [|x l IH]; cbn; [constructor|]. now apply insert_sorted_sorted. Qed.

Lemma child_list_ok c p : CWF c -> exists l, get_child_list p c = Ret l /\
  LocallySorted (fun a b => str_leb a b = true) l /\ NoDup l /\ (forall x, In x l <-> below c (lower p) x).
Proof.
  intros W. unfold get_child_list.
  destruct (filter_ok_spec (fun k => is_child_of_parent (lower p) k c) (fun x => below c (lower p) x) (map fst (c_child c)))
    as (keep & E & K).
  { intros x Hx. destruct (is_child_ok c W (lower p) x) as (t & E & E'). exists t. split; [assumption|].
    rewrite E', lower_idem. rewrite (cw_low _ W x); [reflexivity|]. now apply in_table. }
  rewrite E. cbn [obind]. eexists. split; [reflexivity|]. split; [apply sort_sorted|]. split.
  - eapply Permutation_NoDup; [symmetry; apply sort_perm|]. apply NoDup_filter, table_NoDup, W.
  - intros x. split.
    + intros H. apply (Permutation_in _ (sort_perm _)) in H. apply filter_In in H as [H1 H2]. now apply K.
    + intros H. apply (Permutation_in _ (Permutation_sym (sort_perm _))). apply filter_In.
      assert (In x (map fst (c_child c))) by (apply in_table; [|apply (below_keys _ W _ _ H)]; assumption).
      split; [assumption|]. now apply K.
Qed.
