(** Block collections: re-keying, adding, re-parenting; consistency is kept. *)
From Coq Require Import String Ascii List NArith ZArith Bool Permutation Lia.
From Verif Require Import PyBase PyFacts StarBlockModel CollectionModel CollectionSpec CollectionProofs.
Import ListNotations.
Open Scope nat_scope.

Lemma order_NoDup c : CWF c -> NoDup (c_order c).
Proof. intros W. eapply Permutation_NoDup; [symmetry; apply (cw_order _ W)|apply (cw_keys _ W)]. Qed.
Lemma set_NoDup c : CWF c -> NoDup (c_lower c).
Proof. intros W. eapply Permutation_NoDup; [symmetry; apply (cw_set _ W)|apply (cw_keys _ W)]. Qed.

Lemma visible_NoDup c : CWF c -> visible_ok c -> NoDup (c_vis c).
Proof.
  unfold visible_ok. intros W V. destruct (c_scope c); [apply V|].
  eapply Permutation_NoDup; [symmetry; exact V|apply (cw_keys _ W)].
Qed.
Lemma root_key c x : CWF c -> root c x -> In x (ckeys c).
Proof. intros W (i & H). apply (in_table c W). now apply (in_map fst) in H. Qed.
Lemma root_visible c x : CWF c -> visible_ok c -> root c x -> In x (c_vis c).
Proof.
  unfold visible_ok. intros W V R. destruct (c_scope c); [now apply V|].
  eapply Permutation_in; [symmetry; exact V|]. now apply root_key.
Qed.
Lemma visible_key c x : CWF c -> visible_ok c -> In x (c_vis c) -> In x (ckeys c).
Proof.
  unfold visible_ok. intros W V H. destruct (c_scope c).
  - apply root_key; [assumption|]. now apply V.
  - eapply Permutation_in; eauto.
Qed.

Definition moved (old new x : str) : str := if str_eqb x old then new else x.
Definition moved_pc (old new : str) (e : pc) : pc := PC (pc_id e) (option_map (moved old new) (pc_parent e)).

Lemma repoint_map old new t : repoint old new t = map (fun a => (fst a, moved_pc old new (snd a))) t.
Proof.
  unfold repoint. apply map_ext. intros [k [i [p|]]]; cbn; [|reflexivity].
  unfold moved_pc, moved. cbn. destruct (str_eqb_spec p old) as [->|]; reflexivity.
Qed.

Lemma insert_index_moved old new l i :
  NoDup l -> index_of str_eqb old l = Some i -> insert_at i new (remove1 str_eqb old l) = map (moved old new) l.
Proof.
  revert i. induction l as [|y l IH]; cbn; [discriminate|]. intros i. inversion 1 as [|? ? H1 H2]; subst.
  unfold moved at 1. destruct (str_eqb_spec old y) as [->|n].
  - intros [= <-]. rewrite str_eqb_refl. unfold insert_at. cbn. f_equal.
    clear -H1. induction l as [|z l IH]; [reflexivity|]. cbn. cbn in H1. f_equal; [|apply IH; tauto].
    unfold moved. destruct (str_eqb_spec z y); [exfalso; subst; tauto|reflexivity].
  - destruct (index_of str_eqb old l) as [j|]; [|discriminate]. intros [= <-].
    destruct (str_eqb_spec y old); [congruence|].
    unfold insert_at in *. cbn. f_equal. now apply IH.
Qed.

Lemma remove1_kept k l : NoDup l -> remove1 str_eqb k l = filter (kept [k]) l.
Proof.
  intros N. rewrite <- remove1_filter by assumption. now rewrite (filter_all (kept [])) by reflexivity.
Qed.
Lemma ddel_kept {V} k (d : list (str * V)) : NoDup (map fst d) -> ddel str_eqb k d = filter (fun kb => kept [k] (fst kb)) d.
Proof.
  intros N. rewrite <- ddel_filter by assumption. now rewrite filter_all by reflexivity.
Qed.
Lemma kept_one k x : kept [k] x = negb (str_eqb x k).
Proof. unfold kept, smem, mem. cbn. now rewrite orb_false_r. Qed.

Lemma dset_new {V} k (v : V) d : ~ In k (map fst d) -> dset str_eqb k v d = d ++ [(k, v)].
Proof.
  induction d as [|[k' v'] d IH]; cbn; [reflexivity|]. intros H.
  destruct (str_eqb_spec k k') as [->|]; [exfalso; auto|]. f_equal. auto.
Qed.
Lemma dset_twice {V} k (v v' : V) d : dset str_eqb k v (dset str_eqb k v' d) = dset str_eqb k v d.
Proof.
  induction d as [|[k1 v1] d IH]; cbn; [now rewrite str_eqb_refl|].
  destruct (str_eqb_spec k k1) as [->|n]; cbn; [now rewrite str_eqb_refl|].
  destruct (str_eqb_spec k k1); [contradiction|]. now f_equal.
Qed.

(** What re-keying does. *)
Definition rekeyed (old new : str) (b : block) (e : pc) (c : coll) : coll :=
  Coll (filter (fun kb => kept [old] (fst kb)) (c_dict c) ++ [(new, b)])
       (filter (kept [old]) (c_lower c) ++ [new])
       (map (fun a => (fst a, moved_pc old new (snd a))) (filter (fun kb => kept [old] (fst kb)) (c_child c)) ++ [(new, e)])
       (filter (kept [old]) (c_vis c) ++ [new])
       (map (moved old new) (c_order c)) (c_std c) (c_scope c) (c_uni c) (c_gram c).

Lemma filter_map_fst {V W} (f : str -> bool) (g : str * V -> W) (d : list (str * V)) :
  filter (fun kb => f (fst kb)) (map (fun a => (fst a, g a)) d) = map (fun a => (fst a, g a)) (filter (fun kb => f (fst kb)) d).
Proof. induction d as [|[k v] d IH]; cbn; [reflexivity|]. destruct (f k); cbn; congruence. Qed.

Section Rekey.
  Variable c : coll.
  Hypothesis W : CWF c.
  Variables old new : str.
  Hypothesis Ho : In old (ckeys c).
  Hypothesis Hn : ~ In new (ckeys c).

  Lemma rekey_effect bid : NoDup (c_vis c) -> In old (c_vis c) ->
    exists b e, dget str_eqb old (c_dict c) = Some b /\ dget str_eqb old (c_child c) = Some e /\
      rekey old new bid c =
        (rekeyed old new b (match bid with None => e | Some i => PC i (pc_parent e) end) c, Ret tt).
  Proof using W Ho Hn.
    intros NV Hv.
    destruct (dget str_eqb old (c_dict c)) as [b|] eqn:Eb;
      [|apply (dget_None str_eqb str_eqb_spec) in Eb; contradiction].
    destruct (dget str_eqb old (c_child c)) as [e|] eqn:Ee.
    2:{ apply (dget_None str_eqb str_eqb_spec) in Ee. apply (in_table c W) in Ho. contradiction. }
    exists b, e. split; [reflexivity|]. split; [reflexivity|].
    unfold rekey. unfold c_get. rewrite (cw_low _ W _ Ho).
    replace (smem old (c_lower c)) with true by (symmetry; apply smem_In; now apply (in_set c W)).
    rewrite Eb, Ee.
    replace (smem old (c_vis c)) with true by (symmetry; now apply smem_In).
    cbn [c_order set_child].
    destruct (index_of str_eqb old (c_order c)) as [pos|] eqn:Ei.
    2:{ apply (index_of_None str_eqb str_eqb_spec) in Ei. apply (in_corder c W) in Ho. contradiction. }
    set (c1 := set_child (repoint old new (c_child c)) c).
    assert (No : old <> new) by congruence.
    assert (E1 : c_del old c1 = (prune [old] c1, Ret tt)).
    { unfold c_del. cbn [del_go]. unfold c_get. rewrite (cw_low _ W _ Ho). unfold c1 at 1. cbn [c_lower set_child].
      replace (smem old (c_lower c)) with true by (symmetry; apply smem_In; now apply (in_set c W)).
      unfold c1 at 1. cbn [c_dict set_child]. rewrite Eb.
      assert (Ew : with_parent (Some old) (c_child c1) = []).
      { destruct (with_parent (Some old) (c_child c1)) as [|x l] eqn:E; [reflexivity|].
        assert (H : In x (with_parent (Some old) (c_child c1))) by (rewrite E; now left).
        apply in_with_parent in H as (i & H). unfold c1 in H. cbn in H. rewrite repoint_map in H.
        apply in_map_iff in H as ([k [j [p|]]] & E2 & _); unfold moved_pc in E2; cbn in E2; [|discriminate].
        injection E2 as _ _ E3. unfold moved in E3. destruct (str_eqb_spec p old); congruence. }
      rewrite Ew. cbn [del_all].
      assert (T1 : map fst (c_child c1) = map fst (c_child c)).
      { unfold c1. cbn. rewrite repoint_map, map_map. reflexivity. }
      unfold c1 in T1. cbn in T1.
      unfold del_one, c1, set_corder, set_lower, set_vis, set_dict, set_child.
      cbn [c_lower c_vis c_child c_dict c_order c_std c_scope c_uni c_gram].
      replace (dmem str_eqb old (c_dict c)) with true by (symmetry; apply (dmem_In str_eqb str_eqb_spec); exact Ho).
      replace (dmem str_eqb old (repoint old new (c_child c))) with true.
      2:{ symmetry. apply (dmem_In str_eqb str_eqb_spec). unfold dkeys. rewrite T1. now apply (in_table c W). }
      cbn [negb].
      replace (smem old (c_vis c)) with true by (symmetry; now apply smem_In). cbn [negb].
      replace (smem old (c_lower c)) with true by (symmetry; apply smem_In; now apply (in_set c W)). cbn [negb].
      replace (smem old (c_order c)) with true by (symmetry; apply smem_In; now apply (in_corder c W)). cbn [negb].
      unfold prune, set_corder, set_lower, set_vis, set_dict, set_child.
      cbn [c_lower c_vis c_child c_dict c_order c_std c_scope c_uni c_gram].
      rewrite !ddel_kept, !remove1_kept; auto using order_NoDup, set_NoDup.
      - rewrite T1. now apply table_NoDup.
      - apply (cw_keys _ W). }
    rewrite E1. unfold rekeyed, prune, c1, set_vis, set_child, set_corder, set_lower, set_dict.
    cbn [c_lower c_vis c_child c_dict c_order c_std c_scope c_uni c_gram].
    replace (smem new (filter (kept [old]) (c_lower c))) with false.
    2:{ symmetry. apply smem_false. rewrite filter_In, (in_set c W). tauto. }
    f_equal. f_equal.
    - apply dset_new. rewrite map_fst_filter, filter_In. tauto.
    - rewrite dset_new.
      + rewrite repoint_map. rewrite (filter_map_fst (kept [old]) (fun a => moved_pc old new (snd a))). reflexivity.
      + rewrite repoint_map. rewrite (filter_map_fst (kept [old]) (fun a => moved_pc old new (snd a))).
        rewrite map_map. cbn. rewrite map_fst_filter, filter_In, (in_table c W). tauto.
    - rewrite <- remove1_kept by now apply order_NoDup. apply insert_index_moved; [now apply order_NoDup|assumption].
  Qed.

  Lemma moved_inj x y : In x (ckeys c) -> In y (ckeys c) -> moved old new x = moved old new y -> x = y.
  Proof using Hn.
    unfold moved. intros Hx Hy. destruct (str_eqb_spec x old), (str_eqb_spec y old); intros; subst; congruence.
  Qed.

  Variables (b : block) (e e' : pc).
  Hypothesis Ee : dget str_eqb old (c_child c) = Some e.
  Hypothesis Ee' : pc_parent e' = pc_parent e.
  Let c' := rekeyed old new b e' c.

  Lemma self_parent : pc_parent e <> Some old.
  Proof using W Ee.
    clear Ee' c' e'. intros E. apply (dget_In str_eqb str_eqb_spec) in Ee. destruct e as [i q]. cbn in E. subst q.
    apply (cw_acyclic _ W old), below_one. exists i. exact Ee.
  Qed.

  Lemma rekeyed_entry x q :
    (exists i, In (x, PC i q) (c_child c')) <->
    exists x0 q0, (exists i, In (x0, PC i q0) (c_child c)) /\ x = moved old new x0 /\ q = option_map (moved old new) q0.
  Proof using W Ho Hn Ee Ee'.
    unfold c'. cbn [rekeyed c_child]. pose proof self_parent as SP.
    assert (Ie : In (old, e) (c_child c)) by now apply (dget_In str_eqb str_eqb_spec).
    assert (Q : pc_parent e = option_map (moved old new) (pc_parent e)).
    { destruct (pc_parent e) as [p|]; [|reflexivity]. cbn. unfold moved.
      destruct (str_eqb_spec p old); [congruence|reflexivity]. }
    split.
    - intros (i & H). apply in_app_iff in H as [H|[H|[]]].
      + apply in_map_iff in H as ([x0 [j q0]] & E & H). apply filter_In in H as [H K]. cbn in K.
        rewrite kept_one in K. injection E as E1 E2 E3. exists x0, q0. split; [eauto|].
        split; [|auto]. unfold moved. destruct (str_eqb_spec x0 old); [discriminate|auto].
      + injection H as E1 E2. subst x. rewrite E2 in Ee'. cbn in Ee'.
        exists old, (pc_parent e). destruct e as [j q0]. cbn in *. split; [eauto|].
        split; [unfold moved; now rewrite str_eqb_refl|]. now rewrite <- Q.
    - intros (x0 & q0 & (i & H) & -> & ->). unfold moved at 1. destruct (str_eqb_spec x0 old) as [->|n].
      + pose proof (entry_unique c W _ _ _ H Ie) as E. subst e. cbn in *.
        exists (pc_id e'). apply in_or_app. right. left. destruct e' as [j q]. cbn in *. subst q. now rewrite <- Q.
      + exists i. apply in_or_app. left. apply in_map_iff. exists (x0, PC i q0).
        split; [reflexivity|]. apply filter_In. split; [assumption|]. cbn. rewrite kept_one.
        now destruct (str_eqb_spec x0 old).
  Qed.

  Lemma rekeyed_inside p x :
    inside c' p x <-> exists p0 x0, inside c p0 x0 /\ p = moved old new p0 /\ x = moved old new x0.
  Proof using W Ho Hn Ee Ee'.
    unfold inside at 1. rewrite rekeyed_entry. split.
    - intros (x0 & [p0|] & H & -> & E); [|discriminate]. injection E as ->. exists p0, x0. auto.
    - intros (p0 & x0 & H & -> & ->). exists x0, (Some p0). auto.
  Qed.
  Lemma rekeyed_root x : root c' x <-> exists x0, root c x0 /\ x = moved old new x0.
  Proof using W Ho Hn Ee Ee'.
    unfold root at 1. rewrite rekeyed_entry. split.
    - intros (x0 & [p0|] & H & -> & E); [discriminate|]. exists x0. auto.
    - intros (x0 & H & ->). exists x0, None. auto.
  Qed.

  Lemma rekeyed_below p x :
    below c' p x <-> exists p0 x0, below c p0 x0 /\ p = moved old new p0 /\ x = moved old new x0.
  Proof using W Ho Hn Ee Ee'.
    split.
    - induction 1 as [x H|x y H IH H'].
      + apply rekeyed_inside in H as (p0 & x0 & H & E1 & E2). exists p0, x0. split; [now apply below_one|auto].
      + destruct IH as (p0 & x0 & B & -> & ->). apply rekeyed_inside in H' as (x1 & y0 & I & E & ->).
        assert (x0 = x1).
        { apply moved_inj; [apply (below_keys _ W _ _ B)|eapply (cw_parents _ W); eauto|assumption]. }
        subst x1. exists p0, y0. split; [eapply below_more; eauto|auto].
    - intros (p0 & x0 & B & -> & ->). induction B as [x H|x y H IH H'].
      + apply below_one, rekeyed_inside. eauto.
      + eapply below_more; [exact IH|]. apply rekeyed_inside. eauto.
  Qed.

  Lemma perm_moved l : NoDup l -> In old l -> Permutation (filter (kept [old]) l ++ [new]) (map (moved old new) l).
  Proof.
    induction l as [|x l IH]; [intros _ []|]. inversion 1 as [|? ? H1 H2]; subst. intros HI. cbn.
    rewrite kept_one. unfold moved at 1. destruct (str_eqb_spec x old) as [->|n]; cbn.
    - rewrite <- Permutation_cons_append. constructor.
      assert (E : filter (kept [old]) l = l).
      { apply filter_all. intros y Hy. rewrite kept_one. destruct (str_eqb_spec y old); [subst; contradiction|reflexivity]. }
      rewrite E. clear -H1. induction l as [|z l IH]; [reflexivity|]. cbn in *. unfold moved at 1.
      destruct (str_eqb_spec z old); [exfalso; tauto|]. constructor. apply IH. tauto.
    - constructor. apply IH; [assumption|]. destruct HI; congruence.
  Qed.

  Lemma rekeyed_keys : Permutation (ckeys c') (map (moved old new) (ckeys c)).
  Proof using W Ho.
    unfold c', ckeys. cbn. rewrite map_app, map_fst_filter. apply perm_moved; [apply (cw_keys _ W)|exact Ho].
  Qed.

  Lemma NoDup_moved l : (forall x, In x l -> In x (ckeys c)) -> NoDup l -> NoDup (map (moved old new) l).
  Proof using Hn.
    induction l as [|x l IH]; intros HI; cbn; [constructor|]. inversion 1; subst. constructor; [|apply IH; auto; intros; apply HI; now right].
    intros H'. apply in_map_iff in H' as (y & E & Hy). apply moved_inj in E; [subst; contradiction| |]; apply HI; cbn; auto.
  Qed.

  Hypothesis Ln : lower new = new.
  Lemma rekeyed_CWF : CWF c'.
  Proof using W Ho Hn Ee Ee' Ln.
    pose proof rekeyed_keys as RK.
    constructor.
    - eapply Permutation_NoDup; [symmetry; exact RK|]. apply NoDup_moved; [auto|apply (cw_keys _ W)].
    - intros k Hk. apply (Permutation_in _ RK) in Hk. apply in_map_iff in Hk as (x & <- & Hx).
      unfold moved. destruct (str_eqb_spec x old); [assumption|now apply (cw_low _ W)].
    - rewrite RK. unfold c'. cbn. rewrite perm_moved; [apply Permutation_map, (cw_set _ W)|now apply set_NoDup|now apply (in_set c W)].
    - rewrite RK. unfold c'. cbn. rewrite map_app, map_map. cbn. rewrite map_fst_filter.
      rewrite perm_moved; [apply Permutation_map, (cw_table _ W)|now apply table_NoDup|now apply (in_table c W)].
    - rewrite RK. unfold c'. cbn. apply Permutation_map, (cw_order _ W).
    - intros p x H. apply rekeyed_inside in H as (p0 & x0 & H & -> & ->).
      eapply Permutation_in; [symmetry; exact RK|]. apply in_map. eapply (cw_parents _ W); eauto.
    - intros x H. apply rekeyed_below in H as (p0 & x0 & B & E1 & E2). subst x.
      apply moved_inj in E2; [|apply (below_keys _ W _ _ B)|apply (below_keys _ W _ _ B)]. subst. eapply (cw_acyclic _ W); eauto.
  Qed.

  Lemma rekeyed_visible : visible_ok c -> In old (c_vis c) -> visible_ok c'.
  Proof using W Ho Hn Ee Ee'.
    intros V Hv. pose proof (visible_NoDup c W V) as NV.
    pose proof (perm_moved (c_vis c) NV Hv) as P.
    unfold visible_ok in *. change (c_scope c') with (c_scope c). destruct (c_scope c).
    - destruct V as [_ V]. unfold c' at 1 2. cbn. split.
      + eapply Permutation_NoDup; [symmetry; exact P|].
        apply NoDup_moved; [|assumption]. intros x Hx. apply root_key; [assumption|]. now apply V.
      + intros x. rewrite rekeyed_root. split.
        * intros H. apply (Permutation_in _ P) in H. apply in_map_iff in H as (y & <- & Hy). exists y. split; [now apply V|reflexivity].
        * intros (y & Hy & ->). eapply Permutation_in; [symmetry; exact P|]. apply in_map. now apply V.
    - rewrite rekeyed_keys. unfold c'. cbn. rewrite P. now apply Permutation_map.
  Qed.
End Rekey.

(** What adding under a fresh key does. *)
Definition added (k name : str) (parent : option str) (b : block) (c : coll) : coll :=
  Coll (c_dict c ++ [(k, set_characterset (c_uni c) b)]) (c_lower c ++ [k])
       (c_child c ++ [(k, PC name (option_map lower parent))])
       (match parent, c_scope c with Some _, Instance => c_vis c | _, _ => c_vis c ++ [k] end)
       (c_order c ++ [k]) (c_std c) (c_scope c) (c_uni c) (c_gram c).

Section Add.
  Variable c : coll.
  Hypothesis W : CWF c.
  Variables (k name : str) (parent : option str) (b : block).
  Hypothesis Hk : ~ In k (ckeys c).
  Hypothesis Lk : lower k = k.
  Hypothesis Hp : forall p, parent = Some p -> In (lower p) (ckeys c).

  Lemma add_effect : add_block k name parent b c = added k name parent b c.
  Proof using W Hk Hp.
    unfold add_block, added, set_dict, set_child, set_vis, set_lower, set_corder.
    cbn [c_lower c_vis c_child c_dict c_order c_std c_scope c_uni c_gram].
    replace (smem k (c_lower c)) with false by (symmetry; apply smem_false; now rewrite (in_set c W)).
    assert (T : forall e, dset str_eqb k e (c_child c) = c_child c ++ [(k, e)]).
    { intros e. apply dset_new. now rewrite (in_table c W). }
    assert (D : forall v, dset str_eqb k v (c_dict c) = c_dict c ++ [(k, v)]).
    { intros v. apply dset_new. exact Hk. }
    destruct parent as [p|] eqn:E.
    - replace (smem (lower p) (c_lower c ++ [k])) with true.
      2:{ symmetry. apply smem_In, in_or_app. left. apply (in_set c W). now apply Hp. }
      destruct (c_scope c); cbn [c_lower c_vis c_child c_dict c_order c_std c_scope c_uni c_gram];
        rewrite dset_twice, T, D; reflexivity.
    - cbn [c_lower c_vis c_child c_dict c_order c_std c_scope c_uni c_gram].
      rewrite dset_twice, T, D. now destruct (c_scope c).
  Qed.

  Let c' := added k name parent b c.
  Lemma added_keys : ckeys c' = ckeys c ++ [k].
  Proof. unfold c', ckeys. cbn. now rewrite map_app. Qed.

  Lemma added_inside p x : inside c' p x <-> inside c p x \/ (x = k /\ option_map lower parent = Some p).
  Proof.
    unfold inside, c'. cbn. split.
    - intros (i & H). apply in_app_iff in H as [H|[H|[]]]; [eauto|]. injection H as E1 _ E2. auto.
    - intros [(i & H)|[-> E]].
      + exists i. apply in_or_app. auto.
      + exists name. apply in_or_app. right. rewrite E. now left.
  Qed.
  Lemma added_root x : root c' x <-> root c x \/ (x = k /\ parent = None).
  Proof.
    unfold root, c'. cbn. split.
    - intros (i & H). apply in_app_iff in H as [H|[H|[]]]; [eauto|]. injection H as E1 _ E2.
      destruct parent; [discriminate|auto].
    - intros [(i & H)|[-> E]].
      + exists i. apply in_or_app. auto.
      + exists name. apply in_or_app. right. rewrite E. now left.
  Qed.
  Lemma added_below p x : below c' p x <-> below c p x \/ (x = k /\ exists q, parent = Some q /\ (p = lower q \/ below c p (lower q))).
  Proof using W Hk Hp.
    split.
    - induction 1 as [x H|x y H IH H'].
      + apply added_inside in H as [H|[-> H]]; [left; now apply below_one|].
        destruct parent as [q|] eqn:Eq; [|discriminate]. injection H as <-. right. eauto.
      + apply added_inside in H' as [H'|[-> H']].
        * destruct IH as [IH|[-> _]]; [left; eapply below_more; eauto|].
          exfalso. apply Hk. eapply (cw_parents _ W); eauto.
        * destruct parent as [q|] eqn:Eq; [|discriminate]. injection H' as <-.
          destruct IH as [IH|[E _]]; [right; eauto 6|]. exfalso. apply Hk. rewrite <- E. now apply Hp.
    - assert (L : forall x, below c p x -> below c' p x).
      { induction 1; [apply below_one|eapply below_more; [eassumption|]]; apply added_inside; auto. }
      intros [H|(-> & q & Eq & [->|H])]; [auto| |].
      + apply below_one, added_inside. right. now rewrite Eq.
      + eapply below_more; [apply L; eassumption|]. apply added_inside. right. now rewrite Eq.
  Qed.

  Lemma added_CWF : CWF c'.
  Proof using W Hk Hp Lk.
    constructor.
    - rewrite added_keys. apply NoDup_app_iff. split; [apply (cw_keys _ W)|]. split; [constructor; [intros []|constructor]|].
      intros x Hx [<-|[]]. contradiction.
    - intros x. rewrite added_keys, in_app_iff. intros [H|[<-|[]]]; [now apply (cw_low _ W)|assumption].
    - rewrite added_keys. unfold c'. cbn. apply Permutation_app_tail, (cw_set _ W).
    - rewrite added_keys. unfold c'. cbn. rewrite map_app. cbn. apply Permutation_app_tail, (cw_table _ W).
    - rewrite added_keys. unfold c'. cbn. apply Permutation_app_tail, (cw_order _ W).
    - intros p x H. rewrite added_keys. apply in_or_app. apply added_inside in H as [H|[-> H]].
      + left. eapply (cw_parents _ W); eauto.
      + left. destruct parent as [q|] eqn:E; [|discriminate]. injection H as <-. now apply Hp.
    - intros x H. apply added_below in H as [H|(-> & q & Eq & [E|H])].
      + eapply (cw_acyclic _ W); eauto.
      + apply Hk. rewrite E. now apply Hp.
      + apply Hk. apply (below_keys _ W _ _ H).
  Qed.

  Lemma added_visible : visible_ok c -> visible_ok c'.
  Proof using W Hk Hp.
    unfold visible_ok. change (c_scope c') with (c_scope c). intros V. rewrite added_keys.
    change (c_vis c') with (match parent, c_scope c with Some _, Instance => c_vis c | _, _ => c_vis c ++ [k] end).
    destruct (c_scope c).
    - destruct V as [N V]. pose proof added_root as AR. destruct parent as [p|] eqn:E.
      + split; [assumption|]. intros x. rewrite AR, V. split; [auto|]. intros [H|[_ H]]; [assumption|discriminate].
      + split.
        * apply NoDup_app_iff. split; [assumption|]. split; [constructor; [intros []|constructor]|].
          intros x Hx [<-|[]]. apply Hk. apply root_key; [assumption|]. now apply V.
        * intros x. rewrite AR, in_app_iff, V. cbn. intuition.
    - destruct parent; now apply Permutation_app_tail.
  Qed.
End Add.

Lemma fresh_go_spec fuel : forall k keys used,
  NoDup used -> (forall x, In x used -> In x keys /\ length x < length k) -> length keys <= fuel + length used ->
  exists k', fresh_go fuel k keys = Ret k' /\ ~ In k' keys /\ exists n, k' = k ++ repeat 43%N n /\
    forall m, m < n -> In (k ++ repeat 43%N m) keys.
Proof.
  induction fuel as [|f IH]; intros k keys used N U F; cbn [fresh_go];
    (destruct (smem k keys) eqn:M; [apply smem_In in M|apply smem_false in M; exists k; split; [reflexivity|];
       split; [assumption|]; exists 0; cbn; rewrite app_nil_r; split; [reflexivity|]; intros m Hm; lia]).
  - exfalso. assert (H : length (k :: used) <= length keys).
    { apply NoDup_incl_length.
      - constructor; [|assumption]. intros H. apply U in H. lia.
      - intros x [<-|H]; [assumption|now apply U]. }
    cbn in *. lia.
  - destruct (IH (k ++ [43%N]) keys (k :: used)) as (k' & E & NI & n & E' & L).
    + constructor; [|assumption]. intros H. apply U in H. lia.
    + intros x [<-|H].
      * split; [assumption|]. rewrite app_length. cbn. lia.
      * split; [now apply U|]. rewrite app_length. apply U in H. cbn. lia.
    + cbn. lia.
    + exists k'. split; [assumption|]. split; [assumption|]. exists (Datatypes.S n).
      rewrite <- app_assoc in E'. split; [exact E'|].
      intros [|m] Hm; [cbn; now rewrite app_nil_r|]. cbn. specialize (L m). rewrite <- app_assoc in L. apply L. lia.
Qed.

Lemma fresh_key_spec k keys :
  exists k', fresh_key k keys = Ret k' /\ ~ In k' keys /\ exists n, k' = k ++ repeat 43%N n /\
    forall m, m < n -> In (k ++ repeat 43%N m) keys.
Proof. apply (fresh_go_spec (length keys) k keys []); [exact (NoDup_nil _)|intros x []|unfold str in *; cbn; lia]. Qed.

Lemma lower_plus k n : lower k = k -> lower (k ++ repeat 43%N n) = k ++ repeat 43%N n.
Proof.
  intros L. unfold lower in *. rewrite map_app, L. f_equal.
  induction n; cbn; [reflexivity|]. now f_equal.
Qed.

Lemma fresh_lower k keys k' : lower k = k -> fresh_key k keys = Ret k' -> lower k' = k' /\ ~ In k' keys.
Proof.
  intros L E. destruct (fresh_key_spec k keys) as (k2 & E2 & NI & n & E3 & _).
  rewrite E in E2. injection E2 as ->. split; [subst; now apply lower_plus|assumption].
Qed.

(** Scoping. *)
Lemma scope_CWF s c : CWF c -> CWF (set_scope s c).
Proof.
  intros W. constructor; try apply W.
  intros x H. apply (cw_acyclic _ W x). revert H. now apply below_ext.
Qed.
Lemma scope_visible s c : CWF c -> visible_ok (set_scope s c).
Proof.
  intros W. unfold visible_ok. cbn. destruct s; [|apply W].
  split.
  - unfold with_parent. apply NoDup_map_filter. now apply table_NoDup.
  - intros x. apply in_with_parent.
Qed.

(** Re-parenting. *)
Section Parent.
  Variable c : coll.
  Hypothesis W : CWF c.
  Variables p k : str.
  Hypothesis Hp : In p (ckeys c).
  Hypothesis Hk : In k (ckeys c).
  Hypothesis Npk : p <> k.
  Hypothesis Nb : ~ below c k p.
  Variables (e : pc) (i : str).
  Hypothesis Ee : dget str_eqb k (c_child c) = Some e.
  Let c' := set_child (dset str_eqb k (PC i (Some p)) (c_child c)) c.

  Lemma parent_table : map fst (c_child c') = map fst (c_child c).
  Proof using Ee.
    unfold c'. cbn. pose proof (dkeys_dset str_eqb str_eqb_spec k (PC i (Some p)) (c_child c)) as E.
    unfold dkeys in E. rewrite E. unfold dmem. now rewrite Ee.
  Qed.

  Lemma dset_In {V} (v w : V) d x : NoDup (map fst d) -> In k (map fst d) ->
    (In (x, w) (dset str_eqb k v d) <-> (x = k /\ w = v) \/ (x <> k /\ In (x, w) d)).
  Proof.
    intros N H.
    assert (N' : NoDup (map fst (dset str_eqb k v d))) by now apply (NoDup_dset str_eqb str_eqb_spec).
    split.
    - intros HI. apply (dget_In_NoDup str_eqb str_eqb_spec _ _ _ N') in HI.
      destruct (str_eqb_spec x k) as [->|n].
      + rewrite (dget_dset_eq str_eqb str_eqb_spec) in HI. injection HI as ->. auto.
      + rewrite (dget_dset_neq str_eqb str_eqb_spec) in HI by assumption. right. split; [assumption|].
        now apply (dget_In str_eqb str_eqb_spec).
    - intros [[-> ->]|[n HI]]; apply (dget_In str_eqb str_eqb_spec).
      + apply (dget_dset_eq str_eqb str_eqb_spec).
      + rewrite (dget_dset_neq str_eqb str_eqb_spec) by assumption. now apply (dget_In_NoDup str_eqb str_eqb_spec).
  Qed.

  Lemma parent_inside q x : inside c' q x <-> (x = k /\ q = p) \/ (x <> k /\ inside c q x).
  Proof using W Hk Ee.
    unfold inside, c'. cbn. split.
    - intros (j & H). apply dset_In in H; [|now apply table_NoDup|now apply (in_table c W)].
      destruct H as [[-> H]|[n H]]; [injection H as -> ->; auto|right; eauto].
    - intros [[-> ->]|[n (j & H)]].
      + exists i. apply dset_In; [now apply table_NoDup|now apply (in_table c W)|auto].
      + exists j. apply dset_In; [now apply table_NoDup|now apply (in_table c W)|auto].
  Qed.

  Lemma parent_below a x : below c' a x -> below c a x \/ ((a = p \/ below c a p) /\ (x = k \/ below c k x)).
  Proof using W Hk Ee Npk Nb.
    induction 1 as [x H|x y H IH H'].
    - apply parent_inside in H as [[-> ->]|[n H]]; [auto|left; now apply below_one].
    - apply parent_inside in H' as [[-> ->]|[n H']].
      + destruct IH as [IH|[_ [E|IH]]]; [auto|congruence|contradiction].
      + destruct IH as [IH|[IH1 [->|IH2]]].
        * left. eapply below_more; eauto.
        * right. split; [assumption|]. right. now apply below_one.
        * right. split; [assumption|]. right. eapply below_more; eauto.
  Qed.

  Lemma parent_CWF : CWF c'.
  Proof using W Hk Ee Npk Nb Hp.
    assert (K : ckeys c' = ckeys c) by reflexivity.
    constructor; try (rewrite ?K; apply W).
    - rewrite parent_table. apply W.
    - intros q x H. apply parent_inside in H as [[-> ->]|[n H]]; [assumption|eapply (cw_parents _ W); eauto].
    - intros x H. apply parent_below in H as [H|[H1 H2]]; [eapply (cw_acyclic _ W); eauto|].
      destruct H1 as [->|H1], H2 as [->|H2].
      + congruence.
      + auto.
      + auto.
      + apply Nb. eapply below_trans; eauto.
  Qed.
End Parent.
