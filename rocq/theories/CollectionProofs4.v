(** Block collections: every block is written once; merging. *)
From Coq Require Import String Ascii List NArith ZArith Bool Permutation Lia.
From Verif Require Import PyBase PyFacts StarBlockModel CollectionModel CollectionSpec CollectionProofs CollectionProofs2 CollectionProofs3.
Import ListNotations.
Open Scope nat_scope.

Section Plan.
  Variable c : coll.
  Hypothesis W : CWF c.

  Lemma has_root_go n : forall path x,
    NoDup path -> (forall a, In a path -> below c x a) -> In x (ckeys c) -> length (ckeys c) <= n + length path ->
    root c x \/ exists r, root c r /\ below c r x.
  Proof using W.
    induction n as [|n IH]; intros path x N B K F.
    { exfalso. assert (H : length (x :: path) <= length (ckeys c)).
      { apply NoDup_incl_length.
        - constructor; [|assumption]. intros Hk. eapply (cw_acyclic _ W), B, Hk.
        - intros y [<-|Hy]; [assumption|]. apply (below_keys _ W _ _ (B _ Hy)). }
      cbn in *. lia. }
    pose proof K as K'. apply (in_table c W) in K'. apply in_map_iff in K' as ([y [i [p|]]] & E & H); cbn in E; subst y.
    - right. assert (I : inside c p x) by (exists i; exact H).
      destruct (IH (x :: path) p) as [R|(r & R & Br)].
      + constructor; [|assumption]. intros Hk. eapply (cw_acyclic _ W), B, Hk.
      + intros a [<-|Ha]; [now apply below_one|]. eapply below_trans; [apply below_one; exact I|]. auto.
      + eapply (cw_parents _ W); eauto.
      + cbn [length]. lia.
      + exists p. split; [assumption|]. now apply below_one.
      + exists r. split; [assumption|]. eapply below_more; eauto.
    - left. exists i. exact H.
  Qed.
  Lemma has_root x : In x (ckeys c) -> root c x \/ exists r, root c r /\ below c r x.
  Proof using W.
    intros H. apply (has_root_go (length (ckeys c)) []); auto; [exact (NoDup_nil _)|intros a []|lia].
  Qed.

  Lemma root_below r x : root c r -> ~ below c x r.
  Proof using W.
    intros R H. inversion H; subst; eapply (root_not_inside c W); eauto.
  Qed.
  Lemma root_unique r r' x : root c r -> root c r' -> below c r x -> below c r' x -> r = r'.
  Proof using W.
    intros R R' H H'. destruct (below_linear c W _ _ _ H H') as [E|[E|E]]; [assumption| |];
      exfalso; [exact (root_below _ _ R' E)|exact (root_below _ _ R E)].
  Qed.

  Lemma top_blocks_ok order : (forall x, In x order -> In x (ckeys c)) ->
    exists keep : str -> bool, top_blocks order (c_child c) = Ret (filter keep order) /\
      forall x, In x order -> (keep x = true <-> root c x).
  Proof using W.
    intros H. exists (fun x => match dget str_eqb x (c_child c) with Some (PC _ None) => true | _ => false end).
    split.
    - induction order as [|x order IH]; [reflexivity|]. cbn [top_blocks filter].
      destruct (dget str_eqb x (c_child c)) as [[i [p|]]|] eqn:E.
      + rewrite IH by (intros; apply H; now right). reflexivity.
      + rewrite IH by (intros; apply H; now right). reflexivity.
      + apply (dget_None str_eqb str_eqb_spec) in E. exfalso. apply E. apply (in_table c W), H. now left.
    - intros x Hx. split.
      + destruct (dget str_eqb x (c_child c)) as [[i [p|]]|] eqn:E; try discriminate. intros _.
        exists i. now apply (dget_In str_eqb str_eqb_spec).
      + intros (i & Hi). now rewrite (dget_In_NoDup str_eqb str_eqb_spec _ _ _ (table_NoDup c W) Hi).
  Qed.

  Lemma write_tops_ok tops : (forall x, In x tops -> In x (ckeys c)) ->
    exists frames : str -> list str,
      write_tops tops c = Ret (concat (map (fun r => section (c_std c) r (frames r)) tops)) /\
      forall r, In r tops -> exists keep, frames r = filter keep (c_order c) /\
        forall x, In x (c_order c) -> (keep x = true <-> below c r x).
  Proof using W.
    intros H.
    exists (fun r => filter (fun x => match is_child_of_parent r x c with Ret t => t | Raise _ => false end) (c_order c)).
    assert (F : forall r, In r (ckeys c) ->
      filter_ok (fun a => is_child_of_parent r a c) (c_order c) =
        Ret (filter (fun x => match is_child_of_parent r x c with Ret t => t | Raise _ => false end) (c_order c))).
    { intros r Hr. induction (c_order c) as [|x l IH]; [reflexivity|]. cbn [filter_ok filter].
      destruct (is_child_ok c W r x) as (t & E & _). rewrite E. cbn [obind]. rewrite IH. reflexivity. }
    split.
    - induction tops as [|k tops IH]; [reflexivity|]. cbn [write_tops].
      rewrite F by (apply H; now left). cbn [obind]. rewrite IH by (intros; apply H; now right). cbn [obind].
      reflexivity.
    - intros r Hr. eexists. split; [reflexivity|]. intros x Hx.
      destruct (is_child_ok c W r x) as (t & E & E'). rewrite E. rewrite E'.
      rewrite (cw_low _ W r) by now apply H. rewrite (cw_low _ W x) by now apply (in_corder c W). reflexivity.
  Qed.

  Lemma plan_keys (tops : list str) (frames : str -> list str) keep :
    tops = filter keep (c_order c) -> (forall x, In x (c_order c) -> (keep x = true <-> root c x)) ->
    (forall r, In r tops -> exists kp, frames r = filter kp (c_order c) /\
        forall x, In x (c_order c) -> (kp x = true <-> below c r x)) ->
    Permutation (tops ++ concat (map frames tops)) (ckeys c).
  Proof using W.
    intros Et Hk Hf.
    assert (Rt : forall r, In r tops <-> root c r).
    { intros r. rewrite Et, filter_In. split; [intros [H1 H2]; now apply Hk|].
      intros R. assert (In r (c_order c)) by (apply (in_corder c W); now apply root_key). split; [assumption|]. now apply Hk. }
    assert (Fr : forall r x, root c r -> (In x (frames r) <-> below c r x)).
    { intros r x R. apply Rt in R. destruct (Hf r R) as (kp & -> & Hkp). rewrite filter_In. split.
      - intros [H1 H2]. now apply Hkp.
      - intros B. assert (In x (c_order c)) by (apply (in_corder c W); apply (below_keys _ W _ _ B)).
        split; [assumption|]. now apply Hkp. }
    assert (Nt : NoDup tops) by (rewrite Et; apply NoDup_filter; now apply order_NoDup).
    apply NoDup_Permutation.
    - apply NoDup_app_iff. split; [assumption|]. split.
      + assert (Hr : forall r, In r tops -> root c r) by (intros; now apply Rt).
        clear Et Rt. induction tops as [|r tops IH]; [constructor|]. cbn. inversion Nt; subst.
        apply NoDup_app_iff. split; [|split].
        * destruct (Hf r (or_introl eq_refl)) as (kp & -> & _). apply NoDup_filter. now apply order_NoDup.
        * apply IH; auto; intros; [apply Hf|apply Hr]; now right.
        * intros x Hx Hx'. apply in_concat in Hx' as (l & Hl & Hx'). apply in_map_iff in Hl as (r' & <- & Hr').
          assert (R : root c r) by (apply Hr; now left). assert (R' : root c r') by (apply Hr; now right).
          apply Fr in Hx; [|assumption]. apply Fr in Hx'; [|assumption].
          pose proof (root_unique _ _ _ R R' Hx Hx'). subst. contradiction.
      + intros x Hx Hx'. apply Rt in Hx. apply in_concat in Hx' as (l & Hl & Hx'). apply in_map_iff in Hl as (r' & <- & Hr').
        apply Rt in Hr'. apply Fr in Hx'; [|assumption]. exact (root_below _ _ Hx Hx').
    - apply (cw_keys _ W).
    - intros x. rewrite in_app_iff. split.
      + intros [H|H].
        * apply root_key; [assumption|]. now apply Rt.
        * apply in_concat in H as (l & Hl & Hx). apply in_map_iff in Hl as (r & <- & Hr). apply Rt in Hr.
          apply Fr in Hx; [|assumption]. apply (below_keys _ W _ _ Hx).
      + intros H. destruct (has_root x H) as [R|(r & R & B)]; [left; now apply Rt|]. right.
        apply in_concat. exists (frames r). split; [apply in_map; now apply Rt|]. now apply Fr.
  Qed.
End Plan.

(** Renamings of a collection. *)
Definition renaming (f : str -> str) (c c1 : coll) : Prop :=
  Permutation (c_dict c1) (map (fun kb => (f (fst kb), snd kb)) (c_dict c)) /\
  Permutation (c_child c1)
    (map (fun a => (f (fst a), PC (pc_id (snd a)) (option_map f (pc_parent (snd a))))) (c_child c)) /\
  c_order c1 = map f (c_order c) /\
  c_std c1 = c_std c /\ c_scope c1 = c_scope c /\ c_uni c1 = c_uni c /\ c_gram c1 = c_gram c.

Lemma renaming_id c : renaming (fun x => x) c c.
Proof.
  unfold renaming. rewrite map_id.
  repeat split; try reflexivity.
  - rewrite (map_ext _ (fun kb => kb)) by (now intros []). now rewrite map_id.
  - rewrite (map_ext _ (fun kb => kb)); [now rewrite map_id|]. intros [x [i [p|]]]; reflexivity.
Qed.
Lemma renaming_comp f g c c1 c2 : renaming f c c1 -> renaming g c1 c2 -> renaming (fun x => g (f x)) c c2.
Proof.
  intros (A1 & A2 & A3 & A4 & A5 & A6 & A7) (B1 & B2 & B3 & B4 & B5 & B6 & B7).
  unfold renaming. repeat split; try congruence.
  - rewrite B1. rewrite A1. rewrite map_map. reflexivity.
  - rewrite B2. rewrite A2. rewrite map_map. cbn.
    erewrite map_ext; [reflexivity|]. intros [x [i [p|]]]; reflexivity.
  - rewrite B3, A3, map_map. reflexivity.
Qed.
Lemma renaming_keys f c c1 : renaming f c c1 -> Permutation (ckeys c1) (map f (ckeys c)).
Proof.
  intros (A1 & _). unfold ckeys. rewrite A1, !map_map. reflexivity.
Qed.

Lemma moved_at k k' : moved k k' k = k'.
Proof. unfold moved. now rewrite str_eqb_refl. Qed.
Lemma moved_off k k' x : x <> k -> moved k k' x = x.
Proof. intros H. unfold moved. now destruct (str_eqb_spec x k). Qed.

Lemma rekeyed_renaming c k k' b e :
  CWF c -> dget str_eqb k (c_dict c) = Some b -> dget str_eqb k (c_child c) = Some e ->
  renaming (moved k k') c (rekeyed k k' b e c).
Proof.
  intros W Eb Ee. unfold renaming. repeat split; try reflexivity.
  - unfold rekeyed. cbn [c_dict].
    assert (Nd : NoDup (map fst (c_dict c))) by apply W.
    assert (Ib : In (k, b) (c_dict c)) by now apply (dget_In str_eqb str_eqb_spec).
    clear -Nd Ib. induction (c_dict c) as [|[x v] d IH]; [destruct Ib|].
    cbn. inversion Nd as [|? ? N1 N2]; subst. rewrite kept_one. unfold moved at 1.
    destruct (str_eqb_spec x k) as [->|n]; cbn.
    + destruct Ib as [Ib|Ib]; [|exfalso; apply N1; now apply (in_map fst) in Ib]. injection Ib as ->.
      rewrite <- Permutation_cons_append. constructor.
      rewrite filter_all.
      * erewrite map_ext_in; [rewrite map_id; reflexivity|]. intros [y w] Hy. cbn. unfold moved.
        destruct (str_eqb_spec y k) as [->|]; [|reflexivity]. exfalso. apply N1. now apply (in_map fst) in Hy.
      * intros [y w] Hy. cbn. rewrite kept_one. destruct (str_eqb_spec y k) as [->|]; [|reflexivity].
        exfalso. apply N1. now apply (in_map fst) in Hy.
    + constructor. apply IH; [assumption|]. destruct Ib; [congruence|assumption].
  - unfold rekeyed. cbn [c_child].
    assert (SP : pc_parent e <> Some k) by exact (self_parent c W k e Ee).
    assert (Nd : NoDup (map fst (c_child c))) by now apply table_NoDup.
    assert (Ib : In (k, e) (c_child c)) by now apply (dget_In str_eqb str_eqb_spec).
    assert (Eid : PC (pc_id e) (option_map (moved k k') (pc_parent e)) = e).
    { destruct e as [i [q0|]]; cbn in *; [|reflexivity]. unfold moved. destruct (str_eqb_spec q0 k); [congruence|reflexivity]. }
    clear -Nd Ib Eid. induction (c_child c) as [|[x v] d IH]; [destruct Ib|].
    cbn [filter map fst snd]. inversion Nd as [|? ? N1 N2]; subst. rewrite kept_one.
    destruct (str_eqb_spec x k) as [->|n]; cbn [negb].
    + destruct Ib as [Ib|Ib]; [|exfalso; apply N1; now apply (in_map fst) in Ib]. injection Ib as ->.
      rewrite Eid, moved_at. rewrite <- Permutation_cons_append. constructor.
      rewrite filter_all.
      * erewrite map_ext_in; [reflexivity|]. intros [y w] Hy. cbn [fst snd]. rewrite moved_off; [reflexivity|].
        intros ->. apply N1. now apply (in_map fst) in Hy.
      * intros [y w] Hy. cbn [fst]. rewrite kept_one. destruct (str_eqb_spec y k) as [->|]; [|reflexivity].
        exfalso. apply N1. now apply (in_map fst) in Hy.
    + rewrite moved_off by assumption. cbn [map app fst snd]. constructor. apply IH; [assumption|]. destruct Ib; [congruence|assumption].
Qed.

(** A hidden block cannot be re-keyed. *)
Lemma rekey_hidden c old new bid : CWF c -> In old (ckeys c) -> ~ In old (c_vis c) -> old <> new ->
  exists c', rekey old new bid c = (c', Raise ValueErr).
Proof.
  intros W Ho Hv No. unfold rekey. unfold c_get. rewrite (cw_low _ W _ Ho).
  replace (smem old (c_lower c)) with true by (symmetry; apply smem_In; now apply (in_set c W)).
  destruct (dget str_eqb old (c_dict c)) as [b|] eqn:Eb; [|apply (dget_None str_eqb str_eqb_spec) in Eb; contradiction].
  destruct (dget str_eqb old (c_child c)) as [e|] eqn:Ee.
  2:{ apply (dget_None str_eqb str_eqb_spec) in Ee. apply (in_table c W) in Ho. contradiction. }
  cbn [c_order set_child].
  destruct (index_of str_eqb old (c_order c)) as [pos|] eqn:Ei.
  2:{ apply (index_of_None str_eqb str_eqb_spec) in Ei. apply (in_corder c W) in Ho. contradiction. }
  unfold c_del. cbn [del_go]. unfold c_get. rewrite (cw_low _ W _ Ho). cbn [c_lower c_dict set_child].
  replace (smem old (c_lower c)) with true by (symmetry; apply smem_In; now apply (in_set c W)). rewrite Eb.
  assert (Ew : with_parent (Some old) (c_child (set_child (repoint old new (c_child c)) c)) = []).
  { destruct (with_parent (Some old) (c_child (set_child (repoint old new (c_child c)) c))) as [|x l] eqn:E; [reflexivity|].
    assert (H : In x (with_parent (Some old) (c_child (set_child (repoint old new (c_child c)) c)))) by (rewrite E; now left).
    apply in_with_parent in H as (i & H). cbn in H. rewrite repoint_map in H.
    apply in_map_iff in H as ([k [j [p|]]] & E2 & _); unfold moved_pc in E2; cbn in E2; [|discriminate].
    injection E2 as _ _ E3. unfold moved in E3. destruct (str_eqb_spec p old); congruence. }
  rewrite Ew. cbn [del_all]. unfold del_one, set_dict, set_child.
  cbn [c_lower c_vis c_child c_dict c_order c_std c_scope c_uni c_gram].
  replace (dmem str_eqb old (c_dict c)) with true by (symmetry; apply (dmem_In str_eqb str_eqb_spec); exact Ho).
  replace (dmem str_eqb old (repoint old new (c_child c))) with true.
  2:{ symmetry. apply (dmem_In str_eqb str_eqb_spec). unfold dkeys. rewrite repoint_map, map_map. cbn. now apply (in_table c W). }
  cbn [negb]. apply smem_false in Hv. rewrite Hv. cbn [negb]. eauto.
Qed.

Definition vis_in (c : coll) : Prop := NoDup (c_vis c) /\ incl (c_vis c) (ckeys c).

Lemma rekeyed_vis_in c k k' b e : CWF c -> ~ In k' (ckeys c) -> vis_in c -> vis_in (rekeyed k k' b e c).
Proof.
  intros W Hn [N I]. unfold vis_in, ckeys. cbn. split.
  - apply NoDup_app_iff. split; [now apply NoDup_filter|]. split; [constructor; [intros []|constructor]|].
    intros x Hx [<-|[]]. apply filter_In in Hx as [Hx _]. apply Hn. now apply I.
  - rewrite map_app, map_fst_filter. intros x. rewrite !in_app_iff, !filter_In. cbn.
    intros [[H1 H2]|H]; [|auto]. left. split; [now apply I|assumption].
Qed.

Definition plus (k : str) (m : nat) : str := k ++ repeat 43%N m.

Lemma plus_plus k m m' : plus (plus k m) m' = plus k (m + m').
Proof. unfold plus. now rewrite <- app_assoc, repeat_app. Qed.

Lemma fresh_one k keys : In k keys -> (forall m, 1 <= m -> ~ In (plus k m) keys) -> fresh_key k keys = Ret (plus k 1).
Proof.
  intros H1 H2. destruct (fresh_key_spec k keys) as (k' & E & NI & n & En & L).
  rewrite E. f_equal. destruct n as [|[|n]].
  - exfalso. apply NI. rewrite En. cbn. now rewrite app_nil_r.
  - exact En.
  - exfalso. apply (H2 1); [lia|]. apply (L 1). lia.
Qed.

Lemma plus_ends k k2 m : 1 <= m -> plus k2 m = plus k 1 -> k2 = k \/ k = plus k2 (m - 1).
Proof.
  unfold plus. intros Hm E. right. replace m with ((m - 1) + 1) in E by lia. rewrite repeat_app, app_assoc in E.
  now apply app_inj_tail in E as [E _].
Qed.

Lemma merge_dups_ok l : forall parent c n c' n' r,
  CWF c -> CWF n -> vis_in c -> vis_in n -> NoDup l ->
  (forall x, In x (ckeys c) -> In x (ckeys n) -> In x l) ->
  (forall k, In k l -> In k (ckeys c) /\ In k (ckeys n) /\
     forall m, 1 <= m -> ~ In (plus k m) (ckeys c) /\ ~ In (plus k m) (ckeys n)) ->
  (forall p, parent = Some p -> In p (ckeys c)) ->
  merge_dups l parent c n = (c', n', Ret r) ->
  exists fc fn, renaming fc c c' /\ renaming fn n n' /\ CWF c' /\ CWF n' /\ vis_in c' /\ vis_in n' /\
    (forall x, In x (ckeys c') -> ~ In x (ckeys n')) /\
    r = option_map fc parent /\
    (forall x, In x (ckeys c) -> fc x = x \/ (In x (ckeys n) /\ fc x = plus x 1)) /\
    (forall x, In x (ckeys n) -> fn x = x \/ (In x (ckeys c) /\ fn x = plus x 1)).
Proof.
  induction l as [|k l IH]; intros parent c n c' n' r W Wn Vc Vn N D H Hp E.
  - cbn in E. injection E as <- <- <-. exists (fun x => x), (fun x => x).
    split; [apply renaming_id|]. split; [apply renaming_id|]. repeat (split; [assumption|]).
    split; [now destruct parent|auto].
  - cbn [merge_dups] in E. destruct (H k (or_introl eq_refl)) as (Kc & Kn & Hk).
    inversion N as [|? ? N1 N2]; subst.
    destruct (dget str_eqb k (c_child c)) as [ours|] eqn:Eo; [|discriminate].
    destruct (dget str_eqb k (c_child n)) as [theirs|] eqn:Et; [|discriminate].
    assert (Lk : lower (plus k 1) = plus k 1) by (apply lower_plus; now apply (cw_low _ W)).
    assert (Fc : fresh_key k (c_lower c) = Ret (plus k 1)).
    { apply fresh_one; [now apply (in_set c W)|]. intros m Hm. rewrite (in_set c W). now apply Hk. }
    assert (Fn : fresh_key k (c_lower n) = Ret (plus k 1)).
    { apply fresh_one; [now apply (in_set n Wn)|]. intros m Hm. rewrite (in_set n Wn). now apply Hk. }
    assert (Ne : k <> plus k 1).
    { intros X. unfold plus in X. apply (f_equal (@length _)) in X. rewrite app_length in X. cbn in X. lia. }
    assert (Knew : forall y m, In y l -> 1 <= m -> plus y m <> plus k 1).
    { intros y m Hy Hm X. apply plus_ends in X as [->|X]; [contradiction| |assumption].
      destruct (m - 1) as [|m'] eqn:Em.
      - unfold plus in X. cbn in X. rewrite app_nil_r in X. subst. contradiction.
      - destruct (H y (or_intror Hy)) as (_ & _ & Hy'). destruct (Hy' (m - 1)) as [Z _]; [lia|]. apply Z.
        rewrite Em. rewrite <- X. exact Kc. }
    destruct (match pc_parent ours, pc_parent theirs, parent with
              | _, _, Some _ => true | None, Some _, None => true | _, _, _ => false end) eqn:RO.
    + (* our block is renamed *)
      rewrite Fc in E.
      destruct (smem k (c_vis c)) eqn:Mv.
      2:{ apply smem_false in Mv. destruct (rekey_hidden c k (plus k 1) None W Kc Mv Ne) as [cx Ex]. rewrite Ex in E. discriminate. }
      apply smem_In in Mv.
      destruct (rekey_effect c W k (plus k 1) Kc (proj1 (Hk 1 (le_n 1))) None (proj1 Vc) Mv) as (b & e & Eb & Ee & ER).
      rewrite ER in E. destruct parent as [p|]; [|discriminate].
      set (c1 := rekeyed k (plus k 1) b e c) in *.
      assert (R1 : renaming (moved k (plus k 1)) c c1) by now apply rekeyed_renaming.
      assert (W1 : CWF c1) by (eapply rekeyed_CWF; eauto; apply Hk; lia).
      assert (V1 : vis_in c1) by (apply rekeyed_vis_in; auto; apply Hk; lia).
      pose proof (renaming_keys _ _ _ R1) as K1.
      assert (In1 : forall x, In x (ckeys c1) <-> (x = plus k 1 \/ (In x (ckeys c) /\ x <> k))).
      { intros x. split.
        - intros Hx. apply (Permutation_in _ K1) in Hx. apply in_map_iff in Hx as (y & <- & Hy). unfold moved.
          destruct (str_eqb_spec y k); auto.
        - intros Hx. eapply Permutation_in; [symmetry; exact K1|]. apply in_map_iff. destruct Hx as [->|[Hx Nx]].
          + exists k. split; [unfold moved; now rewrite str_eqb_refl|assumption].
          + exists x. split; [unfold moved; now destruct (str_eqb_spec x k)|assumption]. }
      assert (Hpk : In p (ckeys c)) by now apply Hp.
      assert (Hp' : (if str_eqb (lower p) k then plus k 1 else p) = moved k (plus k 1) p).
      { unfold moved. now rewrite (cw_low _ W p Hpk). }
      rewrite Hp' in E.
      apply IH in E; auto.
      * destruct E as (fc & fn & A1 & A2 & A3 & A4 & A5 & A6 & A7 & A8 & A9 & A10).
        exists (fun x => fc (moved k (plus k 1) x)), fn.
        split; [eapply renaming_comp; eauto|]. repeat (split; [assumption|]).
        split.
        -- intros x Hx. unfold moved. destruct (str_eqb_spec x k) as [->|n1].
           ++ right. split; [assumption|]. destruct (A9 (plus k 1)) as [Z|[Z _]]; [apply In1; auto|assumption|].
              exfalso. apply (Hk 1); [lia|assumption].
           ++ apply A9. apply In1. auto.
        -- intros x Hx. destruct (A10 x Hx) as [Z|[Z1 Z2]]; [auto|]. apply In1 in Z1 as [->|[Z1 _]]; [|auto].
           exfalso. apply (Hk 1); [lia|assumption].
      * intros x Hx Hx'. apply In1 in Hx as [->|[Hx Nx]]; [exfalso; apply (Hk 1); [lia|assumption]|].
        destruct (D x Hx Hx') as [<-|Z]; [congruence|assumption].
      * intros y Hy. destruct (H y (or_intror Hy)) as (Y1 & Y2 & Y3). split; [apply In1; right; split; [assumption|congruence]|].
        split; [assumption|]. intros m Hm. split; [|now apply Y3]. rewrite In1. intros [Z|[Z _]]; [now apply Knew in Z|].
        now apply (Y3 m) in Z.
      * intros p0 [= <-]. apply (Permutation_in _ (Permutation_sym K1)). now apply in_map.
    + destruct (match pc_parent ours, pc_parent theirs, parent with Some _, None, None => true | _, _, _ => false end) eqn:RT;
        [|discriminate].
      (* their block is renamed *)
      rewrite Fn in E.
      destruct (smem k (c_vis n)) eqn:Mv.
      2:{ apply smem_false in Mv. destruct (rekey_hidden n k (plus k 1) None Wn Kn Mv Ne) as [cx Ex]. rewrite Ex in E. discriminate. }
      apply smem_In in Mv.
      destruct (rekey_effect n Wn k (plus k 1) Kn (proj2 (Hk 1 (le_n 1))) None (proj1 Vn) Mv) as (b & e & Eb & Ee & ER).
      rewrite ER in E.
      set (c1 := rekeyed k (plus k 1) b e n) in *.
      assert (R1 : renaming (moved k (plus k 1)) n c1) by now apply rekeyed_renaming.
      assert (W1 : CWF c1) by (eapply rekeyed_CWF; eauto; apply Hk; lia).
      assert (V1 : vis_in c1) by (apply rekeyed_vis_in; auto; apply Hk; lia).
      pose proof (renaming_keys _ _ _ R1) as K1.
      assert (In1 : forall x, In x (ckeys c1) <-> (x = plus k 1 \/ (In x (ckeys n) /\ x <> k))).
      { intros x. split.
        - intros Hx. apply (Permutation_in _ K1) in Hx. apply in_map_iff in Hx as (y & <- & Hy). unfold moved.
          destruct (str_eqb_spec y k); auto.
        - intros Hx. eapply Permutation_in; [symmetry; exact K1|]. apply in_map_iff. destruct Hx as [->|[Hx Nx]].
          + exists k. split; [unfold moved; now rewrite str_eqb_refl|assumption].
          + exists x. split; [unfold moved; now destruct (str_eqb_spec x k)|assumption]. }
      apply IH in E; auto.
      * destruct E as (fc & fn & A1 & A2 & A3 & A4 & A5 & A6 & A7 & A8 & A9 & A10).
        exists fc, (fun x => fn (moved k (plus k 1) x)).
        split; [assumption|]. split; [eapply renaming_comp; eauto|]. repeat (split; [assumption|]).
        split.
        -- intros x Hx. destruct (A9 x Hx) as [Z|[Z1 Z2]]; [auto|]. apply In1 in Z1 as [->|[Z1 _]]; [|auto].
           exfalso. apply (proj1 (Hk 1 (le_n 1))); assumption.
        -- intros x Hx. unfold moved. destruct (str_eqb_spec x k) as [->|n1].
           ++ right. split; [assumption|]. destruct (A10 (plus k 1)) as [Z|[Z _]]; [apply In1; auto|assumption|].
              exfalso. first [apply (proj1 (Hk 1 (le_n 1))); assumption|apply (proj2 (Hk 1 (le_n 1))); assumption].
           ++ apply A10. apply In1. auto.
      * intros x Hx Hx'. apply In1 in Hx' as [->|[Hx' Nx]]; [exfalso; first [apply (proj1 (Hk 1 (le_n 1))); assumption|apply (proj2 (Hk 1 (le_n 1))); assumption]|].
        destruct (D x Hx Hx') as [<-|Z]; [congruence|assumption].
      * intros y Hy. destruct (H y (or_intror Hy)) as (Y1 & Y2 & Y3). split; [assumption|].
        split; [apply In1; right; split; [assumption|congruence]|].
        intros m Hm. split; [now apply Y3|]. rewrite In1. intros [Z|[Z _]]; [now apply Knew in Z|].
        now apply (Y3 m) in Z.
Qed.

(** Disjoint union. *)
Lemma dupdate_disjoint {V} (e : list (str * V)) : forall d,
  NoDup (map fst e) -> (forall x, In x (map fst d) -> ~ In x (map fst e)) -> dupdate d e = d ++ e.
Proof.
  induction e as [|[k v] e IH]; intros d N H; [now rewrite app_nil_r|].
  cbn. inversion N; subst. change (dupdate (dset str_eqb k v d) e = d ++ (k, v) :: e).
  rewrite dset_new by (intros Hk; apply (H k Hk); now left).
  rewrite IH; [now rewrite <- app_assoc|assumption|].
  intros x. rewrite map_app, in_app_iff. cbn. intros [Hx|[<-|[]]] Hx'; [apply (H x Hx); now right|contradiction].
Qed.
Lemma supdate_disjoint t : forall s, NoDup t -> (forall x, In x s -> ~ In x t) -> supdate s t = s ++ t.
Proof.
  induction t as [|k t IH]; intros s N H; [now rewrite app_nil_r|].
  cbn. inversion N; subst. change (supdate (if smem k s then s else s ++ [k]) t = s ++ k :: t).
  replace (smem k s) with false by (symmetry; apply smem_false; intros Hk; apply (H k Hk); now left).
  rewrite IH; [now rewrite <- app_assoc|assumption|].
  intros x. rewrite in_app_iff. cbn. intros [Hx|[<-|[]]] Hx'; [apply (H x Hx); now right|contradiction].
Qed.

Definition rp (p : option str) (e : pc) : pc :=
  match p, pc_parent e with Some q, None => PC (pc_id e) (Some q) | _, _ => e end.
Lemma dset_middle {V} k (v w : V) d e : ~ In k (map fst d) -> dset str_eqb k v (d ++ (k, w) :: e) = d ++ (k, v) :: e.
Proof.
  induction d as [|[x u] d IH]; cbn; intros H; [now rewrite str_eqb_refl|].
  destruct (str_eqb_spec k x); [exfalso; auto|]. f_equal. auto.
Qed.
Lemma dupdate_reparent p t2 : forall t1, NoDup (map fst (t1 ++ t2)) ->
  dupdate (t1 ++ t2) (reparent p t2) = t1 ++ map (fun a => (fst a, rp (Some p) (snd a))) t2.
Proof.
  induction t2 as [|[k [i q]] t2 IH]; intros t1 N; [reflexivity|].
  assert (Nk : ~ In k (map fst t1)).
  { rewrite map_app in N. apply NoDup_app_iff in N as (_ & _ & N). intros Hk. apply (N k Hk). now left. }
  unfold reparent. cbn [filter snd pc_parent]. destruct q as [q|]; cbn [opt_eqb].
  - change ((fst (k, PC i (Some q)), rp (Some p) (snd (k, PC i (Some q))))) with (k, PC i (Some q)).
    cbn [map]. replace (t1 ++ (k, PC i (Some q)) :: t2) with ((t1 ++ [(k, PC i (Some q))]) ++ t2) in * by (now rewrite <- app_assoc).
    rewrite <- app_assoc in N. cbn in N.
    etransitivity; [apply (IH (t1 ++ [(k, PC i (Some q))]))|now rewrite <- app_assoc].
    rewrite <- app_assoc. exact N.
  - cbn [map fst snd]. unfold dupdate. cbn [fold_left fst snd]. rewrite dset_middle by assumption.
    change (dupdate (t1 ++ (k, PC i (Some p)) :: t2) (reparent p t2) = t1 ++ (k, PC i (Some p)) :: map (fun a => (fst a, rp (Some p) (snd a))) t2).
    replace (t1 ++ (k, PC i (Some p)) :: t2) with ((t1 ++ [(k, PC i (Some p))]) ++ t2) by (now rewrite <- app_assoc).
    rewrite IH; [now rewrite <- app_assoc|]. rewrite <- app_assoc. rewrite !map_app in *. exact N.
Qed.

Definition joined (p : option str) (c n : coll) : coll :=
  Coll (c_dict c ++ c_dict n) (c_lower c ++ c_lower n)
       (c_child c ++ map (fun a => (fst a, rp p (snd a))) (c_child n))
       (c_vis c ++ c_lower n) (c_order c ++ c_order n) (c_std c) (c_scope c) (c_uni c) (c_gram c).

Section Join.
  Variables c n : coll.
  Hypothesis W : CWF c.
  Hypothesis Wn : CWF n.
  Hypothesis Dj : forall x, In x (ckeys c) -> ~ In x (ckeys n).
  Variable p : option str.
  Hypothesis Hp : forall q, p = Some q -> In q (ckeys c).
  Let u := joined p c n.

  Lemma joined_keys : ckeys u = ckeys c ++ ckeys n.
  Proof. unfold u, ckeys. cbn. now rewrite map_app. Qed.
  Lemma joined_inside q x : inside u q x <-> inside c q x \/ inside n q x \/ (root n x /\ p = Some q).
  Proof.
    unfold inside, root, u. cbn. split.
    - intros (i & H). apply in_app_iff in H as [H|H]; [eauto|]. right.
      apply in_map_iff in H as ([y [j r]] & E & H). unfold rp in E. cbn in E.
      destruct p as [q'|], r as [r|]; inversion E; subst; eauto.
    - intros [(i & H)|[(i & H)|[(i & H) ->]]].
      + exists i. apply in_or_app. auto.
      + exists i. apply in_or_app. right. apply in_map_iff. exists (x, PC i (Some q)). split; [|assumption].
        unfold rp. cbn. now destruct p.
      + exists i. apply in_or_app. right. apply in_map_iff. exists (x, PC i None). split; [reflexivity|assumption].
  Qed.
  Lemma joined_root x : root u x <-> root c x \/ (root n x /\ p = None).
  Proof.
    unfold root, u. cbn. split.
    - intros (i & H). apply in_app_iff in H as [H|H]; [eauto|]. right.
      apply in_map_iff in H as ([y [j r]] & E & H). unfold rp in E. cbn in E.
      destruct p as [q'|], r as [r|]; inversion E; subst; eauto.
    - intros [(i & H)|[(i & H) ->]].
      + exists i. apply in_or_app. auto.
      + exists i. apply in_or_app. right. apply in_map_iff. exists (x, PC i None). split; [reflexivity|assumption].
  Qed.
  Lemma joined_below a x : below u a x ->
    below c a x \/ below n a x \/ (In a (ckeys c) /\ In x (ckeys n)).
  Proof using W Wn Dj Hp.
    induction 1 as [x H|x y H IH H'].
    - apply joined_inside in H as [H|[H|[H E]]].
      + left. now apply below_one.
      + right; left. now apply below_one.
      + right; right. split; [now apply Hp|]. now apply root_key.
    - apply joined_inside in H' as [H'|[H'|[H' E]]].
      + assert (X : In x (ckeys c)) by (eapply (cw_parents _ W); eauto).
        destruct IH as [IH|[IH|[_ IH]]].
        * left. eapply below_more; eauto.
        * exfalso. apply (Dj x X). apply (below_keys _ Wn _ _ IH).
        * exfalso. now apply (Dj x X).
      + assert (X : In x (ckeys n)) by (eapply (cw_parents _ Wn); eauto).
        destruct IH as [IH|[IH|[IH _]]].
        * exfalso. eapply Dj; [|exact X]. apply (below_keys _ W _ _ IH).
        * right; left. eapply below_more; eauto.
        * right; right. split; [assumption|]. eapply (inside_child n Wn); eauto.
      + assert (X : In x (ckeys c)) by now apply Hp.
        right; right. split; [|now apply root_key].
        destruct IH as [IH|[IH|[IH _]]]; [apply (below_keys _ W _ _ IH)| |assumption].
        exfalso. apply (Dj x X). apply (below_keys _ Wn _ _ IH).
  Qed.
  Lemma joined_CWF : CWF u.
  Proof using W Wn Dj Hp.
    constructor.
    - rewrite joined_keys. apply NoDup_app_iff. split; [apply W|]. split; [apply Wn|assumption].
    - intros x. rewrite joined_keys, in_app_iff. intros [H|H]; [now apply (cw_low _ W)|now apply (cw_low _ Wn)].
    - rewrite joined_keys. unfold u. cbn. apply Permutation_app; [apply W|apply Wn].
    - rewrite joined_keys. unfold u. cbn. rewrite map_app, map_map. cbn. apply Permutation_app; [apply W|].
      rewrite <- (cw_table _ Wn). reflexivity.
    - rewrite joined_keys. unfold u. cbn. apply Permutation_app; [apply W|apply Wn].
    - intros q x H. rewrite joined_keys. apply in_or_app. apply joined_inside in H as [H|[H|[H E]]].
      + left. eapply (cw_parents _ W); eauto.
      + right. eapply (cw_parents _ Wn); eauto.
      + left. now apply Hp.
    - intros x H. apply joined_below in H as [H|[H|[H1 H2]]].
      + now apply (cw_acyclic _ W) in H.
      + now apply (cw_acyclic _ Wn) in H.
      + now apply (Dj x H1).
  Qed.
  Lemma joined_vis_in : vis_in c -> vis_in u.
  Proof using W Wn Dj Hp.
    intros [N I]. unfold vis_in. rewrite joined_keys. unfold u. cbn. split.
    - apply NoDup_app_iff. split; [assumption|]. split; [now apply set_NoDup|].
      intros x Hx Hx'. apply (in_set n Wn) in Hx'. apply I in Hx. now apply (Dj x).
    - intros x. rewrite !in_app_iff, (in_set n Wn). intros [H|H]; auto.
  Qed.
End Join.

Lemma merge_tail c n parent :
  CWF c -> CWF n -> (forall x, In x (ckeys c) -> ~ In x (ckeys n)) ->
  Coll (dupdate (c_dict c) (c_dict n)) (supdate (c_lower c) (c_lower n))
       (match parent with None => dupdate (c_child c) (c_child n)
        | Some p => dupdate (dupdate (c_child c) (c_child n)) (reparent (lower p) (c_child n)) end)
       (c_vis c ++ c_lower n) (c_order c ++ c_order n) (c_std c) (c_scope c) (c_uni c) (c_gram c)
  = joined (option_map lower parent) c n.
Proof.
  intros W Wn Dj. unfold joined.
  rewrite dupdate_disjoint by (apply Wn || exact Dj).
  rewrite supdate_disjoint.
  2:{ now apply set_NoDup. }
  2:{ intros x. rewrite (in_set c W), (in_set n Wn). apply Dj. }
  assert (N : NoDup (map fst (c_child c ++ c_child n))).
  { rewrite map_app. apply NoDup_app_iff. split; [now apply table_NoDup|]. split; [now apply table_NoDup|].
    intros x. rewrite (in_table c W), (in_table n Wn). apply Dj. }
  rewrite dupdate_disjoint.
  2:{ now apply table_NoDup. }
  2:{ intros x. rewrite (in_table c W), (in_table n Wn). apply Dj. }
  f_equal. destruct parent as [p|]; cbn [option_map].
  - now apply dupdate_reparent.
  - f_equal. rewrite (map_ext _ (fun a => a)); [now rewrite map_id|]. now intros [x [i [q|]]].
Qed.

Lemma merge_disjoint c n parent :
  CWF c -> CWF n -> (forall x, In x (ckeys c) -> ~ In x (ckeys n)) ->
  merge_fast parent n c = (joined (option_map lower parent) c n, Ret tt).
Proof.
  intros W Wn Dj. unfold merge_fast.
  replace (filter (fun k => smem k (c_lower n)) (c_lower c)) with (@nil str).
  2:{ symmetry. apply filter_none. intros x Hx. apply smem_false. rewrite (in_set n Wn). apply Dj. now apply (in_set c W). }
  cbn [merge_dups]. rewrite <- (merge_tail c n parent W Wn Dj). 
  replace (match c_std c with StdNone => (c, n, Ret parent) | _ => (c, n, Ret parent) end) with (c, n, Ret parent)
    by (now destruct (c_std c)). reflexivity.
Qed.

(** Merging in strict mode. *)
Lemma merge_strict c n parent c' :
  CWF c -> CWF n -> vis_in c -> vis_in n -> c_std c <> StdNone ->
  (forall k, In k (ckeys c) -> In k (ckeys n) -> forall m, 1 <= m -> ~ In (plus k m) (ckeys c) /\ ~ In (plus k m) (ckeys n)) ->
  (forall p, parent = Some p -> In p (ckeys c)) ->
  merge_fast parent n c = (c', Ret tt) ->
  exists fc fn c1 n1, renaming fc c c1 /\ renaming fn n n1 /\ CWF c1 /\ CWF n1 /\
    (forall x, In x (ckeys c1) -> ~ In x (ckeys n1)) /\
    c' = joined (option_map fc parent) c1 n1 /\
    (forall p, option_map fc parent = Some p -> In p (ckeys c1)) /\
    CWF c' /\ vis_in c' /\
    (forall x, In x (ckeys c) -> fc x = x \/ (In x (ckeys n) /\ fc x = plus x 1)) /\
    (forall x, In x (ckeys n) -> fn x = x \/ (In x (ckeys c) /\ fn x = plus x 1)).
Proof.
  intros W Wn Vc Vn S H Hp. unfold merge_fast.
  set (dups := filter (fun k => smem k (c_lower n)) (c_lower c)).
  assert (Hd : forall k, In k dups <-> In k (ckeys c) /\ In k (ckeys n)).
  { intros k. unfold dups. rewrite filter_In, (in_set c W). rewrite smem_In, (in_set n Wn). reflexivity. }
  replace (match c_std c with StdNone => (c, n, Ret parent) | _ => merge_dups dups parent c n end)
    with (merge_dups dups parent c n) by (destruct (c_std c); [contradiction| |]; reflexivity).
  destruct (merge_dups dups parent c n) as [[c1 n1] [r|e]] eqn:E; [|discriminate].
  assert (Nd : NoDup dups) by (apply NoDup_filter; now apply set_NoDup).
  apply merge_dups_ok in E; auto.
  2:{ intros x H1 H2. apply Hd. auto. }
  2:{ intros k Hk. apply Hd in Hk as [H1 H2]. split; [assumption|]. split; [assumption|]. now apply H. }
  destruct E as (fc & fn & A1 & A2 & A3 & A4 & A5 & A6 & A7 & A8 & A9 & A10). intros E.
  assert (P1 : forall p, r = Some p -> In p (ckeys c1)).
  { intros p Er. rewrite Er in A8. destruct parent as [q|]; [|discriminate]. injection A8 as ->.
    eapply Permutation_in; [symmetry; apply (renaming_keys _ _ _ A1)|]. apply in_map. now apply Hp. }
  assert (Lr : option_map lower r = r).
  { destruct r as [p|]; [|reflexivity]. cbn. f_equal. apply (cw_low _ A3). now apply P1. }
  injection E as E. rewrite (merge_tail c1 n1 r A3 A4 A7) in E. rewrite Lr in E. subst c' r.
  exists fc, fn, c1, n1. repeat (split; [assumption|]).
  split; [reflexivity|]. split; [assumption|]. split; [now apply joined_CWF|]. split; [now apply joined_vis_in|]. auto.
Qed.
