(** Block collections: adding blocks, histories of operations, output plan. *)
From Coq Require Import String Ascii List NArith ZArith Bool Permutation Lia.
From Verif Require Import PyBase PyFacts StarBlockModel CollectionModel CollectionSpec CollectionProofs CollectionProofs2.
Import ListNotations.
Open Scope nat_scope.

Lemma c_get_spec c x b : CWF c -> (c_get x c = Ret b <-> In (lower x, b) (c_dict c)).
Proof.
  intros W. unfold c_get. split.
  - destruct (smem (lower x) (c_lower c)); [|discriminate].
    destruct (dget str_eqb (lower x) (c_dict c)) eqn:E; [|discriminate]. intros [= <-].
    now apply (dget_In str_eqb str_eqb_spec).
  - intros H. rewrite (dget_In_NoDup str_eqb str_eqb_spec _ _ _ (cw_keys _ W) H).
    replace (smem (lower x) (c_lower c)) with true; [reflexivity|].
    symmetry. apply smem_In, (in_set c W). now apply (in_map fst) in H.
Qed.
Lemma c_get_missing c x : CWF c -> ~ In (lower x) (ckeys c) -> c_get x c = Raise KeyErr.
Proof.
  intros W H. unfold c_get. replace (smem (lower x) (c_lower c)) with false; [reflexivity|].
  symmetry. apply smem_false. now rewrite (in_set c W).
Qed.
Lemma c_get_low c x : c_get (lower x) c = c_get x c.
Proof. unfold c_get. now rewrite lower_idem. Qed.

(** Deletion. *)
Lemma del_result c k :
  CWF c -> visible_ok c -> In (lower k) (ckeys c) ->
  (forall x, x = lower k \/ below c (lower k) x -> In x (c_vis c)) ->
  exists c' D, c_del k c = (c', Ret tt) /\ c' = prune D c /\ (forall x, In x D <-> x = lower k \/ below c (lower k) x) /\
    CWF c' /\ visible_ok c'.
Proof.
  intros W V K H. destruct (del_ok c W (visible_NoDup c W V) k K H) as (D & E & ED).
  assert (C : closed c D).
  { intros x y Hx Hy. apply ED. apply ED in Hx as [->|Hx]; [auto|]. right. eapply below_trans; eauto. }
  exists (prune D c), D. split; [assumption|]. split; [reflexivity|]. split; [assumption|].
  split; [now apply prune_CWF|].
  unfold visible_ok in *. change (c_scope (prune D c)) with (c_scope c). destruct (c_scope c).
  - destruct V as [N V]. cbn. split; [now apply NoDup_filter|]. intros x. rewrite filter_In, V, kept_true.
    unfold root. cbn. split.
    + intros [(i & HI) HD]. exists i. apply filter_In. split; [assumption|]. now apply kept_true.
    + intros (i & HI). apply filter_In in HI as [HI HD]. apply kept_true in HD. eauto.
  - rewrite ckeys_prune. cbn. now apply filter_perm.
Qed.
Lemma del_missing c k : CWF c -> ~ In (lower k) (ckeys c) -> c_del k c = (c, Raise KeyErr).
Proof. intros W H. unfold c_del. cbn [del_go]. now rewrite c_get_missing. Qed.

(** Renaming. *)
Lemma rename_result c old new :
  CWF c -> visible_ok c -> (In (lower old) (ckeys c) -> In (lower old) (c_vis c)) ->
  (In (lower new) (ckeys c) /\ rename old new c = (c, Raise StarErr)) \/
  (~ In (lower new) (ckeys c) /\ ~ In (lower old) (ckeys c) /\ rename old new c = (c, Raise KeyErr)) \/
  (~ In (lower new) (ckeys c) /\ exists b e e',
     In (lower old, b) (c_dict c) /\ In (lower old, e) (c_child c) /\
     pc_parent e' = pc_parent e /\ pc_id e' = (match new with [] => pc_id e | _ => new end) /\
     rename old new c = (rekeyed (lower old) (lower new) b e' c, Ret tt) /\
     CWF (rekeyed (lower old) (lower new) b e' c) /\ visible_ok (rekeyed (lower old) (lower new) b e' c)).
Proof.
  intros W V Hv. unfold rename. destruct (smem (lower new) (c_lower c)) eqn:M.
  - left. apply smem_In, (in_set c W) in M. auto.
  - right. apply smem_false in M. rewrite (in_set c W) in M.
    destruct (smem (lower old) (c_lower c)) eqn:M'; cbn [negb].
    + right. apply smem_In, (in_set c W) in M'. split; [assumption|].
      destruct (rekey_effect c W (lower old) (lower new) M' M (match new with [] => None | _ => Some new end))
        as (b & e & Eb & Ee & E); [now apply visible_NoDup|auto|].
      exists b, e, (match new with [] => e | _ => PC new (pc_parent e) end).
      split; [now apply (dget_In str_eqb str_eqb_spec)|].
      split; [now apply (dget_In str_eqb str_eqb_spec)|].
      assert (P : pc_parent (match new with [] => e | _ => PC new (pc_parent e) end) = pc_parent e) by now destruct new.
      split; [assumption|]. split; [now destruct new|].
      split; [rewrite E; now destruct new|]. split.
      * eapply rekeyed_CWF; eauto. apply lower_idem.
      * eapply rekeyed_visible; eauto.
    + left. apply smem_false in M'. rewrite (in_set c W) in M'. auto.
Qed.

Lemma fix_lower f n : lower (lower (fix_name f n)) = lower (fix_name f n).
Proof. apply lower_idem. Qed.

Lemma setmax_75 b :
  setmaxnamelength 75 b = (fst (setmaxnamelength 75 b), Ret tt) \/
  (exists b', setmaxnamelength 75 b = (b', Raise StarErr)) /\ exists x, In x (b_keys b) /\ 75 < length x.
Proof.
  unfold setmaxnamelength. change (0 <? 75)%Z with true. cbn [andb].
  destruct (existsb (fun k => (75 <? Z.of_nat (length k))%Z) (b_keys b)) eqn:E.
  - right. split; [eauto|]. apply existsb_exists in E as (x & Hx & L). exists x. split; [assumption|].
    apply Z.ltb_lt in L. lia.
  - left. reflexivity.
Qed.
Lemma setmax_75_ok b b' : setmaxnamelength 75 b = (b', Ret tt) -> ~ exists x, In x (b_keys b) /\ 75 < length x.
Proof.
  unfold setmaxnamelength. change (0 <? 75)%Z with true. cbn [andb]. destruct (existsb (fun k => (75 <? Z.of_nat (length k))%Z) (b_keys b)) eqn:E; [discriminate|].
  intros _ (x & Hx & L).
  assert (existsb (fun k => (75 <? Z.of_nat (length k))%Z) (b_keys b) = true).
  { apply existsb_exists. exists x. split; [assumption|]. apply Z.ltb_lt. lia. }
  congruence.
Qed.

Lemma in_root c k : In k (with_parent None (c_child c)) <-> root c k.
Proof. apply in_with_parent. Qed.

(** The block that gets out of the way. *)
Definition shifted (k k' : str) (x : str) : str := if str_eqb x k then k' else x.

Lemma new_block_result c name b f p :
  CWF c -> visible_ok c -> c_std c <> StdNone -> (forall q, p = Some q -> In (lower q) (ckeys c)) ->
  let k := lower (fix_name f name) in
  (refuses c name b k p /\ new_block name b f p c = (c, Raise StarErr)) \/
  (~ refuses c name b k p /\ exists c' r moved_to,
     new_block name b f p c = (c', Ret r) /\ CWF c' /\ visible_ok c' /\
     (moved_to = k \/ p <> None /\ root c k /\ ~ In moved_to (ckeys c)) /\
     c_std c' = c_std c /\
     Permutation (c_dict c') ((r, stored c b) :: map (fun kb => (shifted k moved_to (fst kb), snd kb)) (c_dict c)) /\
     c_order c' = map (shifted k moved_to) (c_order c) ++ [r] /\
     Permutation (c_child c')
       ((r, PC (fix_name f name) (option_map (fun q => shifted k moved_to (lower q)) p)) ::
        map (fun a => (shifted k moved_to (fst a), PC (pc_id (snd a)) (option_map (shifted k moved_to) (pc_parent (snd a)))))
            (c_child c)) /\
     (r = k \/ p = None /\ In k (ckeys c) /\ exists n, r = k ++ repeat 43%N n) /\
     ~ In r (map (shifted k moved_to) (ckeys c))).
Proof.
  intros W V HS Hp k.
  assert (Lk : lower k = k) by apply lower_idem.
  assert (NS : forall x, shifted k k x = x).
  { intros x. unfold shifted. destruct (str_eqb_spec x k); congruence. }
  assert (NSl : forall l, map (shifted k k) l = l).
  { intros l. rewrite (map_ext _ (fun x => x)) by apply NS. apply map_id. }
  unfold new_block. fold k.
  set (m := match c_std c with StdCif => setmaxnamelength 75 b | _ => (b, Ret tt) end).
  assert (M : (m = (match c_std c with StdCif => fst (setmaxnamelength 75 b) | _ => b end, Ret tt)
               /\ ~ (c_std c = StdCif /\ exists x, In x (b_keys b) /\ 75 < length x))
              \/ ((exists b', m = (b', Raise StarErr)) /\ c_std c = StdCif /\ exists x, In x (b_keys b) /\ 75 < length x)).
  { unfold m. destruct (c_std c).
    - contradiction.
    - destruct (setmax_75 b) as [E|[E E']]; [left; split; [exact E|intros [_ H]; eapply setmax_75_ok; eauto]|right; auto].
    - left. split; [reflexivity|]. intros [H _]. discriminate. }
  destruct M as [[EM NM]|[[b' EM] M]]; rewrite EM.
  2:{ left. split; [left; exact M|reflexivity]. }
  set (bb := match c_std c with StdCif => fst (setmaxnamelength 75 b) | _ => b end).
  assert (ST : set_characterset (c_uni c) bb = stored c b) by reflexivity.
  destruct (Nat.ltb_spec 75 (length name)) as [L|L].
  { left. split; [right; now left|reflexivity]. }
  destruct (smem k (c_lower c)) eqn:Mk.
  - apply smem_In, (in_set c W) in Mk. 
    assert (Std : forall A (x y : A), match c_std c with StdNone => x | _ => y end = y) by (destruct (c_std c); [contradiction| |]; reflexivity).
    rewrite Std.
    destruct p as [q|].
    + destruct (smem k (with_parent None (c_child c))) eqn:Mr.
      * apply smem_In, in_root in Mr. right. split.
        { intros [H|[H|[[H _]|(_ & _ & H)]]]; [tauto|lia|discriminate|contradiction]. }
        destruct (fresh_key_spec k (c_lower c)) as (k' & E & NI & n & En & _). rewrite E.
        rewrite (in_set c W) in NI.
        destruct (rekey_effect c W k k' Mk NI None) as (b0 & e & Eb & Ee & ER);
          [now apply visible_NoDup|now apply root_visible|]. rewrite ER.
        set (c1 := rekeyed k k' b0 e c).
        assert (W1 : CWF c1) by (eapply rekeyed_CWF; eauto; subst k'; now apply lower_plus).
        assert (V1 : visible_ok c1) by (eapply rekeyed_visible; eauto; now apply root_visible).
        assert (K1 : Permutation (ckeys c1) (map (moved k k') (ckeys c))) by (eapply rekeyed_keys; eauto).
        assert (Kk : ~ In k (ckeys c1)).
        { intros H. apply (Permutation_in _ K1) in H. apply in_map_iff in H as (x & Ex & Hx). unfold moved in Ex.
          destruct (str_eqb_spec x k); congruence. }
        set (q' := if str_eqb (lower q) k then k' else q).
        assert (Hq' : lower q' = shifted k k' (lower q)).
        { unfold q', shifted. destruct (str_eqb_spec (lower q) k); [|reflexivity]. subst k'. now apply lower_plus. }
        assert (Hq : forall p0, Some q' = Some p0 -> In (lower p0) (ckeys c1)).
        { intros p0 [= <-]. rewrite Hq'. eapply Permutation_in; [symmetry; exact K1|]. apply in_map. now apply Hp. }
        exists (added k (fix_name f name) (Some q') bb c1), k, k'.
        rewrite (add_effect c1 W1 k _ (Some q') bb Kk Hq). split; [reflexivity|].
        split; [now apply added_CWF|]. split; [now apply added_visible|].
        split; [right; split; [discriminate|auto]|]. split; [reflexivity|].
        split; [|split; [|split; [|split]]].
        -- unfold added. cbn [c_dict]. rewrite <- Permutation_cons_append.
           change (set_characterset (c_uni c1) bb) with (stored c b). constructor.
           unfold c1. cbn [c_dict rekeyed].
           assert (Nd : NoDup (map fst (c_dict c))) by apply W.
           assert (Ib : In (k, b0) (c_dict c)) by now apply (dget_In str_eqb str_eqb_spec).
           clear -Nd Ib. induction (c_dict c) as [|[x v] d IH]; [destruct Ib|].
           cbn. inversion Nd as [|? ? N1 N2]; subst. rewrite kept_one. unfold shifted at 1.
           destruct (str_eqb_spec x k) as [->|n]; cbn.
           ++ destruct Ib as [Ib|Ib]; [|exfalso; apply N1; now apply (in_map fst) in Ib]. injection Ib as ->.
              rewrite <- Permutation_cons_append. constructor.
              rewrite filter_all.
              ** erewrite map_ext_in; [rewrite map_id; reflexivity|]. intros [y w] Hy. cbn. unfold shifted.
                 destruct (str_eqb_spec y k) as [->|]; [|reflexivity]. exfalso. apply N1. now apply (in_map fst) in Hy.
              ** intros [y w] Hy. cbn. rewrite kept_one. destruct (str_eqb_spec y k) as [->|]; [|reflexivity].
                 exfalso. apply N1. now apply (in_map fst) in Hy.
           ++ constructor. apply IH; [assumption|]. destruct Ib; [congruence|assumption].
        -- reflexivity.
        -- unfold added. cbn [c_child]. rewrite <- Permutation_cons_append. cbn [option_map]. rewrite Hq'. constructor.
           unfold c1. cbn [c_child rekeyed].
           assert (SP : pc_parent e <> Some k) by exact (self_parent c W k e Ee).
           assert (Nd : NoDup (map fst (c_child c))) by now apply table_NoDup.
           assert (Ib : In (k, e) (c_child c)) by now apply (dget_In str_eqb str_eqb_spec).
           assert (Eid : PC (pc_id e) (option_map (shifted k k') (pc_parent e)) = e).
           { destruct e as [i [q0|]]; cbn in *; [|reflexivity]. unfold shifted. destruct (str_eqb_spec q0 k); [congruence|reflexivity]. }
           clear -Nd Ib Eid. induction (c_child c) as [|[x v] d IH]; [destruct Ib|].
           cbn. inversion Nd as [|? ? N1 N2]; subst. rewrite kept_one. unfold shifted at 1.
           destruct (str_eqb_spec x k) as [->|n]; cbn.
           ++ destruct Ib as [Ib|Ib]; [|exfalso; apply N1; now apply (in_map fst) in Ib]. injection Ib as ->.
              rewrite Eid. rewrite <- Permutation_cons_append. constructor.
              rewrite filter_all.
              ** erewrite map_ext_in; [reflexivity|]. intros [y w] Hy. cbn. unfold shifted at 1.
                 destruct (str_eqb_spec y k) as [->|]; [|reflexivity]. exfalso. apply N1. now apply (in_map fst) in Hy.
              ** intros [y w] Hy. cbn. rewrite kept_one. destruct (str_eqb_spec y k) as [->|]; [|reflexivity].
                 exfalso. apply N1. now apply (in_map fst) in Hy.
           ++ constructor. apply IH; [assumption|]. destruct Ib; [congruence|assumption].
        -- now left.
        -- intros H. apply Kk. eapply Permutation_in; [symmetry; exact K1|]. exact H.
      * apply smem_false in Mr. rewrite in_root in Mr. left. split; [|reflexivity].
        right; right; right. split; [discriminate|auto].
    + destruct (smem k (with_parent None (c_child c))) eqn:Mr.
      * apply smem_In, in_root in Mr. left. split; [|reflexivity]. right; right; left. auto.
      * apply smem_false in Mr. rewrite in_root in Mr. right. split.
        { intros [H|[H|[[_ H]|(H & _)]]]; [tauto|lia|contradiction|now apply H]. }
        destruct (fresh_key_spec k (c_lower c)) as (k' & E & NI & n & En & _). rewrite E.
        rewrite (in_set c W) in NI.
        assert (Lk' : lower k' = k') by (subst k'; now apply lower_plus).
        exists (added k' (fix_name f name) None bb c), k', k.
        rewrite (add_effect c W k' _ None bb NI) by discriminate. split; [reflexivity|].
        split; [apply added_CWF; auto; discriminate|]. split; [apply added_visible; auto; discriminate|].
        split; [now left|]. split; [reflexivity|].
        split; [|split; [|split; [|split]]].
        -- unfold added. cbn [c_dict]. rewrite <- Permutation_cons_append.
           rewrite ST. constructor. rewrite (map_ext _ (fun kb => kb)); [now rewrite map_id|].
           intros [x v]. cbn. now rewrite NS.
        -- rewrite NSl. reflexivity.
        -- unfold added. cbn [c_child]. rewrite <- Permutation_cons_append. constructor.
           rewrite (map_ext _ (fun kb => kb)); [now rewrite map_id|].
           intros [x [i [q0|]]]; cbn; now rewrite ?NS.
        -- right. split; [reflexivity|]. split; [assumption|]. exists n. assumption.
        -- now rewrite NSl.
  - apply smem_false in Mk. rewrite (in_set c W) in Mk. right. split.
    { intros [H|[H|[[_ H]|(_ & H & _)]]]; [tauto|lia| |contradiction]. apply Mk. now apply root_key. }
    exists (added k (fix_name f name) p bb c), k, k.
    rewrite (add_effect c W k _ p bb Mk Hp). split; [reflexivity|].
    split; [now apply added_CWF|]. split; [now apply added_visible|].
    split; [now left|]. split; [reflexivity|].
    split; [|split; [|split; [|split]]].
    -- unfold added. cbn [c_dict]. rewrite <- Permutation_cons_append.
       rewrite ST. constructor. rewrite (map_ext _ (fun kb => kb)); [now rewrite map_id|].
       intros [x v]. cbn. now rewrite NS.
    -- rewrite NSl. reflexivity.
    -- unfold added. cbn [c_child]. rewrite <- Permutation_cons_append.
       replace (option_map (fun q => shifted k k (lower q)) p) with (option_map lower p) by (destruct p; cbn; now rewrite ?NS).
       constructor. rewrite (map_ext _ (fun kb => kb)); [now rewrite map_id|].
       intros [x [i [q0|]]]; cbn; now rewrite ?NS.
    -- now left.
    -- now rewrite NSl.
Qed.

(** Histories. *)
Lemma set_parent_result c p k :
  CWF c -> visible_ok c -> lower p <> lower k -> ~ below c (lower k) (lower p) ->
  (set_parent p k c = (c, Raise KeyErr) \/
   exists c', set_parent p k c = (c', Ret tt) /\ CWF c' /\ visible_ok c').
Proof.
  intros W V N B. unfold set_parent.
  destruct (smem (lower p) (c_lower c)) eqn:Mp; cbn [negb]; [|auto].
  destruct (smem (lower k) (c_lower c)) eqn:Mk; cbn [negb]; [|auto].
  apply smem_In, (in_set c W) in Mp. apply smem_In, (in_set c W) in Mk.
  destruct (dget str_eqb (lower k) (c_child c)) as [e|] eqn:E; [|auto].
  right. eexists. split; [reflexivity|].
  assert (W1 : CWF (set_child (dset str_eqb (lower k) (PC (pc_id e) (Some (lower p))) (c_child c)) c)).
  { eapply parent_CWF; eauto. }
  split; [now apply scope_CWF|now apply scope_visible].
Qed.

Lemma clear_CWF c : CWF (c_clear c) /\ visible_ok (c_clear c).
Proof.
  split.
  - constructor; cbn; try constructor; try contradiction.
    + intros p x (i & []).
    + intros x H. assert (G : forall y, ~ below (c_clear c) x y) by (induction 1 as [y [i []]|]; assumption). now apply (G x).
  - unfold visible_ok. cbn. destruct (c_scope c); cbn; [|constructor].
    split; [constructor|]. intros x. split; [contradiction|]. intros (i & []).
Qed.
Lemma new_coll_CWF sd sc un : CWF (new_coll sd sc un) /\ visible_ok (new_coll sd sc un).
Proof. exact (clear_CWF (new_coll sd sc un)). Qed.

(** Changing blocks in place. *)
Lemma remap_CWF c c' : ckeys c' = ckeys c -> c_lower c' = c_lower c -> c_child c' = c_child c ->
  c_order c' = c_order c -> c_vis c' = c_vis c -> c_scope c' = c_scope c ->
  CWF c -> visible_ok c -> CWF c' /\ visible_ok c'.
Proof.
  intros E1 E2 E3 E4 E5 E6 W V.
  assert (I : forall p x, inside c' p x <-> inside c p x) by (intros; unfold inside; now rewrite E3).
  split.
  - constructor; rewrite ?E1, ?E2, ?E3, ?E4; try apply W.
    + intros p x H. apply I in H. now apply (cw_parents _ W) in H.
    + intros x H. apply (cw_acyclic _ W x). now apply (below_ext c' c I).
  - unfold visible_ok in *. rewrite E1, E5, E6. destruct (c_scope c); [|assumption].
    destruct V as [N V]. split; [assumption|]. intros x. rewrite V. unfold root. now rewrite E3.
Qed.

Lemma new_block_none_result c name b f p :
  CWF c -> visible_ok c -> c_std c = StdNone -> reachable_op c (KNew name b f p) ->
  new_block name b f p c = (c, Raise StarErr) \/
  exists c' r, new_block name b f p c = (c', Ret r) /\ CWF c' /\ visible_ok c'.
Proof.
  intros W V S [Hp HR]. specialize (HR S). unfold new_block. rewrite S.
  destruct (Nat.ltb 75 (length name)); [auto|].
  set (k := lower (fix_name f name)) in *.
  assert (Lk : lower k = k) by apply lower_idem.
  right. destruct (smem k (c_lower c)) eqn:M.
  - apply smem_In, (in_set c W) in M. destruct (HR M) as (H1 & H2 & H3).
    destruct (del_result c k W V) as (c1 & D & E & -> & ED & W1 & V1).
    { now rewrite Lk. }
    { rewrite Lk. intros x [->|H]; auto. }
    rewrite E. rewrite Lk in ED.
    assert (Kk : ~ In k (ckeys (prune D c))).
    { rewrite ckeys_prune, filter_In, kept_true. intros [_ H]. apply H, ED. auto. }
    assert (Hq : forall q, p = Some q -> In (lower q) (ckeys (prune D c))).
    { intros q Eq. rewrite ckeys_prune, filter_In, kept_true, ED. split; [now apply Hp|].
      destruct (H3 q Eq) as [G1 G2]. intros [G|G]; contradiction. }
    rewrite (add_effect _ W1 k _ p b Kk Hq). eexists _, _. split; [reflexivity|].
    split; [now apply added_CWF|now apply added_visible].
  - apply smem_false in M. rewrite (in_set c W) in M.
    rewrite (add_effect _ W k _ p b M Hp). eexists _, _. split; [reflexivity|].
    split; [now apply added_CWF|now apply added_visible].
Qed.

Lemma run_cop_ok o c : CWF c -> visible_ok c -> reachable_op c o ->
  exists c' r, run_cop o c = (c', r) /\ CWF c' /\ visible_ok c' /\ (r <> Ret tt -> c' = c).
Proof.
  intros W V R. destruct o as [n b f p|k|a b|p k|s| |un|ov|g]; cbn [run_cop].
  - destruct (c_std c) eqn:S.
    + destruct (new_block_none_result c n b f p W V S R) as [E|(c' & r & E & W' & V')]; rewrite E.
      * eexists _, _. split; [reflexivity|]. auto.
      * eexists _, _. split; [reflexivity|]. split; [assumption|]. split; [assumption|]. intros H. now contradiction H.
    + destruct R as [Hp _].
      destruct (new_block_result c n b f p W V) as [[_ E]|(_ & c' & r & mv & E & W' & V' & _)]; [congruence|assumption| |]; rewrite E.
      * eexists _, _. split; [reflexivity|]. auto.
      * eexists _, _. split; [reflexivity|]. split; [assumption|]. split; [assumption|]. intros H. now contradiction H.
    + destruct R as [Hp _].
      destruct (new_block_result c n b f p W V) as [[_ E]|(_ & c' & r & mv & E & W' & V' & _)]; [congruence|assumption| |]; rewrite E.
      * eexists _, _. split; [reflexivity|]. auto.
      * eexists _, _. split; [reflexivity|]. split; [assumption|]. split; [assumption|]. intros H. now contradiction H.
  - destruct (smem (lower k) (ckeys c)) eqn:M.
    + apply smem_In in M. destruct (R M) as [R1 R2].
      destruct (del_result c k W V M) as (c' & D & E & _ & _ & W' & V'); [intros x [->|H]; auto|]. rewrite E.
      eexists _, _. split; [reflexivity|]. split; [assumption|]. split; [assumption|]. intros H. now contradiction H.
    + apply smem_false in M. rewrite (del_missing c k W M). eexists _, _. split; [reflexivity|]. auto.
  - destruct (rename_result c a b W V R) as [[_ E]|[(_ & _ & E)|(_ & b0 & e & e' & _ & _ & _ & _ & E & W' & V')]]; rewrite E.
    + eexists _, _. split; [reflexivity|]. auto.
    + eexists _, _. split; [reflexivity|]. auto.
    + eexists _, _. split; [reflexivity|]. split; [assumption|]. split; [assumption|]. intros H. now contradiction H.
  - destruct R as [R1 R2]. destruct (set_parent_result c p k W V R1 R2) as [E|(c' & E & W' & V')]; rewrite E.
    + eexists _, _. split; [reflexivity|]. auto.
    + eexists _, _. split; [reflexivity|]. split; [assumption|]. split; [assumption|]. intros H. now contradiction H.
  - eexists _, _. split; [reflexivity|]. split; [now apply scope_CWF|]. split; [now apply scope_visible|]. intros H. now contradiction H.
  - eexists _, _. split; [reflexivity|]. split; [apply clear_CWF|]. split; [apply clear_CWF|]. intros H. now contradiction H.
  - eexists _, _. split; [reflexivity|].
    assert (H : CWF (c_set_characterset un c) /\ visible_ok (c_set_characterset un c)).
    { apply (remap_CWF c); try reflexivity; try assumption. unfold ckeys. cbn. rewrite map_map. apply map_ext.
      intros [x v]. cbn. now destruct (smem x (c_lower c)). }
    split; [apply H|]. split; [apply H|]. intros G. now contradiction G.
  - eexists _, _. split; [reflexivity|].
    assert (H : CWF (c_set_overwrite ov c) /\ visible_ok (c_set_overwrite ov c)).
    { apply (remap_CWF c); try reflexivity; try assumption. unfold ckeys. cbn. rewrite map_map. apply map_ext.
      intros [x v]. cbn. now destruct (smem x (c_lower c)). }
    split; [apply H|]. split; [apply H|]. intros G. now contradiction G.
  - eexists _, _. split; [reflexivity|].
    assert (H : CWF (c_set_grammar g c) /\ visible_ok (c_set_grammar g c)).
    { apply (remap_CWF c); try reflexivity; assumption. }
    split; [apply H|]. split; [apply H|]. intros G. now contradiction G.
Qed.

Lemma run_cops_ok os : forall c, CWF c -> visible_ok c -> reachable_ops os c ->
  CWF (run_cops os c) /\ visible_ok (run_cops os c).
Proof.
  induction os as [|o os IH]; intros c W V R; [auto|].
  destruct R as [R1 R2]. destruct (run_cop_ok o c W V R1) as (c' & r & E & W' & V' & _).
  cbn [run_cops]. rewrite E in R2 |- *. cbn [fst] in *. auto.
Qed.
