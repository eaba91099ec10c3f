(** The order of output under a template. *)
From Coq Require Import String Ascii List NArith ZArith Bool Lia Permutation.
From Verif Require Import PyBase PyFacts StarBlockModel StarBlockSpec FormatModel WriteModel FileModel OrderSpec StarBlockProofs StarBlockProofs2 StarBlockProofs4 StarBlockProofs5.
Import ListNotations.
Open Scope nat_scope.

Definition arrange (req cols : list str) : list str :=
  filter (fun i => mem str_eqb i cols) req
  ++ filter (fun i => negb (mem str_eqb i (filter (fun i => mem str_eqb i cols) req))) cols.
Definition upd (req : list str) (new : list oitem) (kc : Z * list str) : Z * list str :=
  (fst kc, if mem oitem_eqb (OL (fst kc)) new then arrange req (snd kc) else snd kc).

Lemma arrange_perm req cols : NoDup req -> NoDup cols -> Permutation (arrange req cols) cols.
Proof.
  intros N N'. apply NoDup_Permutation; [|exact N'|].
  - apply NoDup_app_iff. split; [now apply NoDup_filter|]. split; [now apply NoDup_filter|].
    intros x H1 H2. apply filter_In in H2 as [_ H2]. apply negb_true_iff, (mem_false _ str_eqb_spec) in H2. contradiction.
  - intros x. unfold arrange. rewrite in_app_iff, !filter_In, (mem_In _ str_eqb_spec). split.
    + intros [[_ H]|[H _]]; assumption.
    + intros H. destruct (mem str_eqb x (filter (fun i => mem str_eqb i cols) req)) eqn:E; [|right; auto].
      apply (mem_In _ str_eqb_spec), filter_In in E as [E _]. now left.
Qed.
Lemma arrange_asked req cols : columns_asked req cols (arrange req cols).
Proof.
  eexists _, _. split; [|split; [|reflexivity]].
  - eexists. split; [|reflexivity]. intros x _. apply (mem_In _ str_eqb_spec).
  - eexists. split; [|reflexivity]. intros x Hx. rewrite negb_true_iff, (mem_false _ str_eqb_spec), filter_In, (mem_In _ str_eqb_spec). tauto.
Qed.

Section Order.
  Variables (b : block) (req : list str).
  Hypothesis W : WF b.
  Hypothesis N : NoDup req.
  Hypothesis L : forall n, In n req -> lower n = n.

  Lemma place_fun n x y : place b n x -> place b n y -> x = y.
  Proof using W.
    intros (Hx & Px) (Hy & Py).
    assert (D : In (ON n) (b_order b) -> forall k cols, In (k, cols) (b_loops b) -> ~ In n cols).
    { intros H k cols Hk Hn. pose proof (printed_NoDup b W) as P. unfold printed_names in P. apply NoDup_app_iff in P as (_ & _ & P).
      apply (P n); [apply in_flat_map; exists (ON n); split; [exact H|now left]|]. apply in_concat. exists cols. split; [|exact Hn].
      apply in_map_iff. exists (k, cols). auto. }
    destruct Px as [->|(k & cols & -> & Hk & Hn)], Py as [->|(k' & cols' & -> & Hk' & Hn')]; [reflexivity| | |].
    - exfalso. eapply D; eauto.
    - exfalso. eapply D; eauto.
    - destruct (wf_loop_unique b _ _ _ _ _ W Hk Hk' Hn Hn') as [-> _]. reflexivity.
  Qed.
  Lemma place_key n x : place b n x -> In n (b_keys b).
  Proof using W.
    intros (Hx & Px). apply (printed_In_keys b n W). unfold printed_names. apply in_or_app. destruct Px as [->|(k & cols & -> & Hk & Hn)].
    - left. apply in_flat_map. exists (ON n). split; [exact Hx|now left].
    - right. apply in_concat. exists cols. split; [|exact Hn]. apply in_map_iff. exists (k, cols). auto.
  Qed.
  Lemma key_place n : In n (b_keys b) -> exists x, place b n x.
  Proof using W.
    intros H. apply (printed_In_keys b n W) in H. apply in_app_or in H as [H|H].
    - exists (ON n). split; [|now left]. apply in_flat_map in H as ([m|k] & H & X); [destruct X as [->|[]]; exact H|destruct X].
    - apply in_concat in H as (cols & H & Hn). apply in_map_iff in H as ([k c] & E & Hk). cbn in E. subst c. exists (OL k). split; [|right; eauto].
      apply order_loops_In. apply (Permutation_in _ (Permutation_sym (wf_refs b W))). apply in_map_iff. exists (k, cols). auto.
  Qed.

  Definition bi (new : list oitem) : block := set_loops (map (upd req new) (b_loops b)) b.
  Definition inv (done : list str) (new : list oitem) : Prop :=
    NoDup new /\ (forall x, In x new <-> exists n, In n done /\ place b n x) /\
    (forall a x c y d, new = a ++ x :: c ++ y :: d -> asked_before b done x y).

  Lemma cols_NoDup k cols : In (k, cols) (b_loops b) -> NoDup cols.
  Proof using W.
    intros H. pose proof (printed_NoDup b W) as P. unfold printed_names in P. apply NoDup_app_iff in P as (_ & P & _).
    apply in_split in H as (l1 & l2 & E). rewrite E, concat_split in P. apply NoDup_app_iff in P as (_ & P & _). apply NoDup_app_iff in P as (P & _). exact P.
  Qed.
  Lemma bi_loop new n : find_loop n (bi new) = find_loop n b.
  Proof using W N.
    unfold find_loop, bi. cbn [b_loops set_loops]. pose proof cols_NoDup as C. revert C. generalize (b_loops b) as ls.
    induction ls as [|[k cols] ls IH]; intros C; [reflexivity|]. cbn [map find upd fst snd].
    assert (loop_has (lower n) (upd req new (k, cols)) = loop_has (lower n) (k, cols)) as E.
    { unfold loop_has, upd. cbn [fst snd]. destruct (mem oitem_eqb (OL k) new); [|reflexivity].
      pose proof (arrange_perm req cols N (C k cols (or_introl eq_refl))) as P.
      destruct (mem str_eqb (lower n) cols) eqn:E.
      - apply (mem_In _ str_eqb_spec). apply (mem_In _ str_eqb_spec) in E. now apply (Permutation_in _ (Permutation_sym P)).
      - apply (mem_false _ str_eqb_spec). apply (mem_false _ str_eqb_spec) in E. intros X. apply E. now apply (Permutation_in _ P). }
    rewrite E. destruct (loop_has (lower n) (k, cols)); [reflexivity|]. apply IH. intros k' c' H. apply (C k' c'). now right.
  Qed.
  Lemma dget_upd new k cols ls : dget Z.eqb k ls = Some cols -> dget Z.eqb k (map (upd req new) ls) = Some (snd (upd req new (k, cols))).
  Proof using.
    induction ls as [|[k' c'] ls IH]; [discriminate|]. cbn [map dget upd fst snd]. destruct (Z.eqb_spec k k') as [->|]; [intros E; injection E as ->; reflexivity|exact IH].
  Qed.
  Lemma dset_upd new k cols ls : NoDup (dkeys ls) -> dget Z.eqb k ls = Some cols ->
    dset Z.eqb k (arrange req cols) (map (upd req new) ls) = map (upd req (new ++ [OL k])) ls.
  Proof using.
    assert (forall k', k' <> k -> mem oitem_eqb (OL k') (new ++ [OL k]) = mem oitem_eqb (OL k') new) as M.
    { intros k' H. unfold mem. rewrite existsb_app. cbn [existsb]. destruct (oitem_eqb_spec (OL k') (OL k)) as [X|_]; [congruence|]. now rewrite !orb_false_r. }
    assert (mem oitem_eqb (OL k) (new ++ [OL k]) = true) as M1 by (apply (mem_In _ oitem_eqb_spec); apply in_or_app; right; now left).
    assert (forall ls, ~ In k (dkeys ls) -> map (upd req (new ++ [OL k])) ls = map (upd req new) ls) as R.
    { intros l H. apply map_ext_in. intros [k' c'] Hi. unfold upd. cbn [fst snd]. rewrite M; [reflexivity|]. intros ->. apply H. apply in_map_iff. exists (k, c'). auto. }
    induction ls as [|[k' c'] ls IH]; [discriminate|]. cbn [map dget dset upd fst snd dkeys]. intros ND. inversion ND; subst.
    destruct (Z.eqb_spec k k') as [<-|Hk].
    - intros E. injection E as ->. f_equal; [unfold upd; cbn [fst snd]; now rewrite M1|symmetry; now apply R].
    - intros E. rewrite IH by assumption. f_equal. unfold upd. cbn [fst snd]. now rewrite M by congruence.
  Qed.

  Lemma asked_more done t x y : asked_before b done x y -> asked_before b (done ++ t) x y.
  Proof using. intros (r1 & n & r2 & -> & H). exists r1, n, (r2 ++ t). rewrite <- app_assoc. auto. Qed.
  Lemma inv_skip done it new : inv done new -> (forall x, place b it x -> In x new) -> inv (done ++ [it]) new.
  Proof using.
    intros (H1 & H2 & H3) H. split; [exact H1|]. split.
    - intros x. rewrite H2. split.
      + intros (n & Hn & P). exists n. split; [apply in_or_app; now left|exact P].
      + intros (n & Hn & P). apply in_app_iff in Hn as [Hn|[<-|[]]]; [eauto|]. now apply H2, H.
    - intros a x c y d E. apply asked_more. eapply H3; exact E.
  Qed.
  Lemma inv_add done it new x : inv done new -> place b it x -> ~ In x new -> inv (done ++ [it]) (new ++ [x]).
  Proof using W.
    intros (H1 & H2 & H3) P Hn. split; [|split].
    - apply NoDup_app_iff. split; [exact H1|]. split; [repeat constructor; intros []|]. intros y Hy [<-|[]]. contradiction.
    - intros y. rewrite in_app_iff, H2. split.
      + intros [(n & Hi & Py)|[<-|[]]]; [exists n; split; [apply in_or_app; now left|exact Py]|]. exists it. split; [apply in_or_app; right; now left|exact P].
      + intros (n & Hi & Py). apply in_app_iff in Hi as [Hi|[<-|[]]]; [left; eauto|]. right. left. exact (place_fun _ _ _ P Py).
    - intros a x0 c y d E. apply asked_more.
      destruct (@exists_last _ (x0 :: c ++ y :: d)) as (z & w & Ez); [discriminate|].
      assert (new = a ++ z /\ x = w) as [E1 E2]. { rewrite Ez in E. rewrite app_assoc in E. apply app_inj_tail in E. exact E. }
      destruct (list_eq_dec (fun p q => match oitem_eqb_spec p q with ReflectT _ e => left e | ReflectF _ e => right e end) d []) as [->|Hd].
      + assert (y = x) as ->. { subst w. change (x0 :: c ++ [y]) with ((x0 :: c) ++ [y]) in Ez. apply app_inj_tail in Ez as [_ Ez]. exact Ez. }
        assert (In x0 new) as Hx0. { rewrite E1. apply in_or_app. right. change (x0 :: c ++ [x]) with ((x0 :: c) ++ [x]) in Ez. apply app_inj_tail in Ez as [<- _]. now left. }
        apply H2 in Hx0 as (n & Hi & Px0). apply in_split in Hi as (r1 & r2 & ->).
        exists r1, n, r2. split; [reflexivity|]. split; [exact Px0|]. split.
        * intros X. apply Hn. apply H2. exists n. split; [apply in_elt|exact X].
        * intros m Hm X. apply Hn. apply H2. exists m. split; [apply in_or_app; now left|exact X].
      + destruct (exists_last Hd) as (d' & w' & ->). apply (H3 a x0 c y d').
        rewrite E1. f_equal. change (x0 :: c ++ y :: d' ++ [w']) with ((x0 :: c) ++ (y :: d') ++ [w']) in Ez. rewrite app_assoc in Ez.
        apply app_inj_tail in Ez as [<- _]. reflexivity.
  Qed.

  Lemma ordering_ok todo : forall done new, req = done ++ todo -> inv done new ->
    exists new', ordering_go req todo new (bi new) = Ret (new', bi new') /\ inv req new'.
  Proof using W N L.
    induction todo as [|it todo IH]; intros done new E I.
    - exists new. split; [reflexivity|]. now rewrite E, app_nil_r.
    - assert (In it req) as Hit by (rewrite E; apply in_elt).
      assert (E' : req = (done ++ [it]) ++ todo) by (rewrite <- app_assoc; exact E).
      cbn [ordering_go]. rewrite (L it Hit). change (b_order (bi new)) with (b_order b).
      destruct (mem oitem_eqb (ON it) (b_order b)) eqn:M.
      + apply (mem_In _ oitem_eqb_spec) in M. assert (place b it (ON it)) as P by (split; [exact M|now left]).
        assert (~ In (ON it) new) as Hn.
        { intros X. apply I in X as (n & Hn & (_ & [X|(k & cols & X & _)])); [|discriminate]. injection X as <-.
          rewrite E in N. apply NoDup_app_iff in N as (_ & _ & D). apply (D it Hn). now left. }
        destruct (IH (done ++ [it]) (new ++ [ON it]) E' (inv_add _ _ _ _ I P Hn)) as (new' & Eg & I'). exists new'. split; [|exact I'].
        rewrite <- Eg. f_equal. unfold bi. f_equal. apply map_ext. intros [k c]. unfold upd. cbn [fst snd].
        unfold mem. rewrite existsb_app. cbn. now rewrite orb_false_r.
      + apply (mem_false _ oitem_eqb_spec) in M. destruct (has_key it (bi new)) eqn:K.
        * apply has_key_In in K. change (b_keys (bi new)) with (b_keys b) in K. rewrite (L it Hit) in K.
          destruct (key_place it K) as (x & P). pose proof P as (Hx & [->|(k & cols & -> & Hk & Hn)]); [contradiction|].
          assert (find_loop_no it (bi new) = k) as Ek.
          { unfold find_loop_no. rewrite bi_loop. destruct (wf_get_loop b it k cols W Hk) as [-> _]; [now rewrite (L it Hit)|reflexivity]. }
          rewrite Ek. destruct (mem oitem_eqb (OL k) new) eqn:Mn.
          { apply (mem_In _ oitem_eqb_spec) in Mn. apply (IH (done ++ [it]) new E'). apply inv_skip; [exact I|].
            intros x Px. now rewrite <- (place_fun _ _ _ P Px). }
          pose proof (dget_In_NoDup _ Z.eqb_spec _ _ _ (wf_nums b W) Hk) as Eg. unfold bi at 1. cbn [b_loops set_loops].
          rewrite (dget_upd new k cols _ Eg). unfold upd at 1 2 3. cbn [fst snd]. rewrite Mn.
          assert (~ In (OL k) new) as Hnk by now apply (mem_false _ oitem_eqb_spec).
          destruct (IH (done ++ [it]) (new ++ [OL k]) E' (inv_add _ _ _ _ I P Hnk)) as (new' & Eo & I'). exists new'. split; [|exact I'].
          rewrite <- Eo. f_equal. unfold bi. cbn [b_loops set_loops].
          fold (arrange req cols). rewrite (dset_upd new k cols _ (wf_nums b W) Eg). reflexivity.
        * apply has_key_false in K. change (b_keys (bi new)) with (b_keys b) in K. rewrite (L it Hit) in K.
          apply (IH (done ++ [it]) new E'). apply inv_skip; [exact I|]. intros x P. exfalso. apply K. eapply place_key; exact P.
  Qed.
End Order.

Lemma full_order_ok b hs : WF b -> NoDup (requested_order hs) -> (forall n, In n (requested_order hs) -> lower n = n) ->
  exists new extras b', full_order hs b = Ret (new, extras, b') /\
    Permutation (new ++ extras) (b_order b) /\
    (forall x, In x new <-> exists n, In n (requested_order hs) /\ place b n x) /\
    (forall a x c y d, new = a ++ x :: c ++ y :: d -> asked_before b (requested_order hs) x y) /\
    those (fun x => ~ In x new) (b_order b) extras /\
    WF b' /\ rearranged (requested_order hs) b b'.
Proof.
  intros W N L. set (req := requested_order hs) in *.
  assert (inv b [] []) as I0.
  { split; [constructor|]. split; [intros x; split; [intros []|intros (n & [] & _)]|]. intros [|? ?]; discriminate. }
  assert (bi b req [] = b) as E0.
  { unfold bi. destruct b. unfold set_loops. cbn. f_equal. rewrite <- (map_id b_loops) at 2. apply map_ext. intros [k c]. reflexivity. }
  destruct (ordering_ok b req W N L req [] [] eq_refl I0) as (new & E & (H1 & H2 & H3)). rewrite E0 in E.
  eexists new, _, (bi b req new). unfold full_order. fold req. rewrite E. cbn [obind fst snd].
  split; [reflexivity|].
  pose proof (StarBlockProofs5.order_NoDup b W) as No.
  assert (those (fun x => ~ In x new) (b_order b) (filter (fun i => negb (mem oitem_eqb i new)) (b_order b))) as HE.
  { eexists. split; [|reflexivity]. intros x _. rewrite negb_true_iff. apply (mem_false _ oitem_eqb_spec). }
  split; [|split; [exact H2|split; [exact H3|split; [exact HE|split]]]].
  - apply NoDup_Permutation; [|exact No|].
    + apply NoDup_app_iff. split; [exact H1|]. split; [now apply NoDup_filter|]. intros x Hx Hy. apply filter_In in Hy as [_ Hy].
      apply negb_true_iff, (mem_false _ oitem_eqb_spec) in Hy. contradiction.
    + intros x. rewrite in_app_iff, filter_In. split.
      * intros [H|[H _]]; [|exact H]. apply H2 in H as (n & _ & (H & _)). exact H.
      * intros H. destruct (mem oitem_eqb x new) eqn:M; [left; now apply (mem_In _ oitem_eqb_spec)|right; auto].
  - assert (dkeys (map (upd req new) (b_loops b)) = dkeys (b_loops b)) as DK by (unfold dkeys; rewrite map_map; reflexivity).
    pose proof (cols_NoDup b W) as C. destruct W as [Wk Wl Wt Wc Wp Wr Wn Wpos].
    constructor; unfold bi, set_loops, b_keys, printed_names in *; cbn [b_data b_loops b_order b_true] in *; rewrite ?DK; auto.
    rewrite <- Wp. apply Permutation_app_head. clear -C N.
    induction (b_loops b) as [|[k c] ls IH]; [constructor|]. cbn [map concat]. apply Permutation_app; [|apply IH; intros k' c' H; apply (C k' c'); now right].
    unfold upd. cbn [fst snd]. destruct (mem oitem_eqb (OL k) new); [|reflexivity]. apply arrange_perm; [exact N|]. apply (C k c). now left.
  - split; [reflexivity|]. split; [reflexivity|]. split; [reflexivity|]. unfold bi. cbn [b_loops set_loops].
    assert (forall k c, In (k, c) (b_loops b) -> In (k, c) (b_loops b)) as Hin by auto. revert Hin. generalize (b_loops b) at 1 3 4 as ls.
    induction ls as [|[k c] ls IH]; intros Hin; cbn [map]; constructor; [|apply IH; intros k' c' H; apply Hin; now right].
    specialize (Hin k c (or_introl eq_refl)). unfold upd. cbn [fst snd]. split; [reflexivity|].
    destruct (mem oitem_eqb (OL k) new) eqn:M.
    + split; [apply arrange_perm; [exact N|exact (cols_NoDup b W k c Hin)]|]. right. apply arrange_asked.
    + split; [reflexivity|]. left. split; [|reflexivity]. intros n Hn Hc. apply (mem_false _ oitem_eqb_spec) in M. apply M. apply H2.
      exists n. split; [exact Hn|]. split; [|right; eauto]. apply order_loops_In.
      apply (Permutation_in _ (Permutation_sym (wf_refs b W))). apply in_map_iff. exists (k, c). auto.
Qed.

(** ** Ordering twice is the same as ordering once *)
Lemma asked_antisym b req x y : asked_before b req x y -> asked_before b req y x -> False.
Proof.
  intros (r1 & n & r2 & E & P & Q & R) (r1' & n' & r2' & E' & P' & Q' & R'). rewrite E in E'. clear E.
  revert r1' E' R R'. induction r1 as [|m r1 IH]; intros [|m' r1'] E R R'; injection E; intros.
  - subst. contradiction.
  - subst. apply (R' m'); [now left|exact P].
  - subst. apply (R n'); [now left|exact P'].
  - subst. eapply IH; [eassumption| |]; intros; [apply R|apply R']; now right.
Qed.
Lemma sorted_unique {A} (R : A -> A -> Prop) : (forall x y, R x y -> R y x -> False) -> forall l l',
  (forall x, In x l <-> In x l') -> NoDup l -> NoDup l' ->
  (forall a x c y d, l = a ++ x :: c ++ y :: d -> R x y) -> (forall a x c y d, l' = a ++ x :: c ++ y :: d -> R x y) -> l = l'.
Proof.
  intros Anti. induction l as [|x l IH]; intros [|y l'] S N N' H H'.
  - reflexivity.
  - exfalso. apply (S y). now left.
  - exfalso. apply (S x). now left.
  - assert (x = y) as ->.
    { destruct (proj1 (S x) (or_introl eq_refl)) as [|Hx]; [congruence|]. destruct (proj2 (S y) (or_introl eq_refl)) as [|Hy]; [congruence|].
      exfalso. apply in_split in Hx as (c & d & ->). apply in_split in Hy as (c' & d' & ->).
      apply (Anti x y); [exact (H [] x c' y d' eq_refl)|exact (H' [] y c x d eq_refl)]. }
    f_equal. inversion N; subst. inversion N'; subst. apply IH; auto.
    + intros z. split; intros Hz.
      * destruct (proj1 (S z) (or_intror Hz)) as [->|]; [contradiction|assumption].
      * destruct (proj2 (S z) (or_intror Hz)) as [->|]; [contradiction|assumption].
    + intros a z c t d ->. exact (H (y :: a) z c t d eq_refl).
    + intros a z c t d ->. exact (H' (y :: a) z c t d eq_refl).
Qed.
Lemma arrange_twice req cols : arrange req (arrange req cols) = arrange req cols.
Proof.
  unfold arrange at 1. assert (filter (fun i => mem str_eqb i (arrange req cols)) req = filter (fun i => mem str_eqb i cols) req) as E.
  { apply filter_ext_in. intros n Hn. apply eq_true_iff_eq. rewrite !(mem_In _ str_eqb_spec). unfold arrange. rewrite in_app_iff, !filter_In, (mem_In _ str_eqb_spec).
    split; [tauto|]. intros H. left. auto. }
  rewrite E. unfold arrange at 2. f_equal. unfold arrange. rewrite filter_app. set (F := filter (fun i => mem str_eqb i cols) req).
  set (P := fun i => negb (mem str_eqb i F)).
  assert (forall l : list str, filter P (filter P l) = filter P l) as I.
  { induction l as [|x l IH]; [reflexivity|]. cbn [filter]. destruct (P x) eqn:Px; [cbn [filter]; rewrite Px; now f_equal|exact IH]. }
  rewrite I. assert (filter P F = []) as ->; [|reflexivity].
  assert (forall l, incl l F -> filter P l = []) as G; [|apply G, incl_refl].
  induction l as [|x l IH]; intros H; [reflexivity|]. cbn [filter]. unfold P at 1.
  rewrite (proj2 (mem_In _ str_eqb_spec x F) (H x (or_introl eq_refl))). cbn [negb]. apply IH. intros y Hy. apply H. now right.
Qed.
Lemma bi_place b req new n x : WF b -> NoDup req -> place (bi b req new) n x <-> place b n x.
Proof.
  intros W N. unfold place, bi. cbn [b_order b_loops set_loops].
  assert (forall k cols, In (k, cols) (b_loops b) -> Permutation (snd (upd req new (k, cols))) cols) as P.
  { intros k cols H. unfold upd. cbn [fst snd]. destruct (mem oitem_eqb (OL k) new); [|reflexivity]. apply arrange_perm; [exact N|exact (cols_NoDup b W k cols H)]. }
  split; intros (H & [->|(k & cols & -> & Hk & Hn)]); (split; [exact H|]); [now left| |now left|]; right.
  - apply in_map_iff in Hk as ([k' c] & E & Hk). injection E as E1 E2. subst k'. subst cols. exists k, c. split; [reflexivity|]. split; [exact Hk|].
    apply (Permutation_in _ (P k c Hk)). exact Hn.
  - exists k, (snd (upd req new (k, cols))). split; [reflexivity|]. split.
    + apply in_map_iff. exists (k, cols). split; [reflexivity|exact Hk].
    + apply (Permutation_in _ (Permutation_sym (P k cols Hk))). exact Hn.
Qed.
Lemma full_order_form hs b new extras b' : WF b -> NoDup (requested_order hs) -> (forall n, In n (requested_order hs) -> lower n = n) ->
  full_order hs b = Ret (new, extras, b') -> b' = bi b (requested_order hs) new /\ NoDup new.
Proof.
  intros W N L. set (req := requested_order hs) in *.
  assert (inv b [] []) as I0.
  { split; [constructor|]. split; [intros x; split; [intros []|intros (n & [] & _)]|]. intros [|? ?]; discriminate. }
  assert (bi b req [] = b) as E0.
  { unfold bi. destruct b. unfold set_loops. cbn. f_equal. rewrite <- (map_id b_loops) at 2. apply map_ext. intros [k c]. reflexivity. }
  destruct (ordering_ok b req W N L req [] [] eq_refl I0) as (new1 & E & (H1 & H2 & H3)). rewrite E0 in E.
  unfold full_order. fold req. rewrite E. cbn [obind fst snd]. intros X. injection X as <- _ <-. split; [reflexivity|exact H1].
Qed.
Lemma full_order_again hs b new extras b' : WF b -> NoDup (requested_order hs) -> (forall n, In n (requested_order hs) -> lower n = n) ->
  full_order hs b = Ret (new, extras, b') -> full_order hs b' = Ret (new, extras, b').
Proof.
  intros W N L E. destruct (full_order_form hs b new extras b' W N L E) as (Eb & Nn).
  destruct (full_order_ok b hs W N L) as (n1 & e1 & b1 & E1 & P1 & S1 & O1 & X1 & W1 & R1). rewrite E in E1. injection E1 as <- <- <-.
  destruct (full_order_ok b' hs W1 N L) as (n2 & e2 & b2 & E2 & P2 & S2 & O2 & X2 & W2 & R2).
  destruct (full_order_form hs b' n2 e2 b2 W1 N L E2) as (Eb2 & Nn2). set (req := requested_order hs) in *.
  assert (new = n2) as <-.
  { apply (sorted_unique (asked_before b req)); auto.
    - intros x y. apply asked_antisym.
    - intros x. rewrite S1, S2. split; intros (n & Hn & Hp); exists n; (split; [exact Hn|]).
      + rewrite Eb. now apply bi_place.
      + rewrite Eb in Hp. now apply bi_place in Hp.
    - intros a x c y d Y. destruct (O2 a x c y d Y) as (r1 & n & r2 & Er & Q1 & Q2 & Q3). exists r1, n, r2. split; [exact Er|].
      rewrite Eb in Q1, Q2, Q3. split; [now apply bi_place in Q1|]. split; [intros Z; apply Q2; now apply bi_place|].
      intros m Hm Z. apply (Q3 m Hm). now apply bi_place. }
  assert (b2 = b') as ->.
  { rewrite Eb2, Eb. unfold bi, set_loops. cbn [b_data b_loops b_order b_true b_over b_max b_uni]. f_equal. rewrite map_map. apply map_ext. intros [k c].
    unfold upd. cbn [fst snd]. f_equal. destruct (mem oitem_eqb (OL k) new); [apply arrange_twice|reflexivity]. }
  rewrite E2. repeat f_equal. unfold full_order in E, E2. fold req in E, E2.
  destruct (ordering_go req req [] b) as [[x1 y1]|] eqn:G1; [|discriminate]. destruct (ordering_go req req [] b') as [[x2 y2]|] eqn:G2; [|discriminate].
  cbn [obind fst snd] in E, E2. injection E as <- <- ->. injection E2 as -> <- _. rewrite Eb. reflexivity.
Qed.

(** ** The two parts of a partial output *)
Lemma parts_cut req new extras name b a c : finish_at req new extras name b = Ret a -> start_from req new extras name b = Ret c -> a ++ c = new ++ extras.
Proof.
  unfold finish_at, start_from. destruct (mem str_eqb name req).
  - destruct (cut_pos req new (new ++ extras) name b) as [p|]; [|discriminate]. cbn [obind]. intros E1 E2. injection E1 as <-. injection E2 as <-. apply firstn_skipn.
  - destruct (mem oitem_eqb (ON name) extras).
    + destruct (index_of oitem_eqb (ON name) (new ++ extras)); [|discriminate]. intros E1 E2. injection E1 as <-. injection E2 as <-. apply firstn_skipn.
    + intros E1 E2. injection E1 as <-. injection E2 as <-. apply app_nil_r.
Qed.
Lemma index_of_In {A} (eqb : A -> A -> bool) (S : forall x y, reflect (x = y) (eqb x y)) x l : In x l -> exists p, index_of eqb x l = Some p.
Proof.
  induction l as [|y l IH]; [intros []|]. intros H. cbn [index_of]. destruct (S x y) as [|N]; [eauto|].
  destruct H as [->|H]; [congruence|]. destruct (IH H) as (p & ->). cbn. eauto.
Qed.
Lemma parts_total hs b new extras b' name : WF b -> NoDup (requested_order hs) -> (forall n, In n (requested_order hs) -> lower n = n) ->
  full_order hs b = Ret (new, extras, b') ->
  exists a c, finish_at (requested_order hs) new extras name b' = Ret a /\ start_from (requested_order hs) new extras name b' = Ret c.
Proof.
  intros W N L E. destruct (full_order_ok b hs W N L) as (n1 & e1 & b1 & E1 & P1 & S1 & O1 & X1 & W1 & R1). rewrite E in E1. injection E1 as <- <- <-.
  set (req := requested_order hs) in *. unfold finish_at, start_from. destruct (mem str_eqb name req) eqn:M.
  - assert (exists p, cut_pos req new (new ++ extras) name b' = Ret p) as (p & ->); [|cbn [obind]; eauto].
    unfold cut_pos. apply (mem_In _ str_eqb_spec) in M. destruct (index_of_In str_eqb str_eqb_spec name req M) as (i & ->).
    destruct (filter (fun k => (0 <? k)%Z) _) as [|k ks] eqn:F; [eauto|].
    assert (In k (k :: ks)) as Hk by now left. rewrite <- F in Hk. apply filter_In in Hk as [Hk Hp]. apply in_map_iff in Hk as (n & Hn & _).
    unfold find_loop_no in Hn. destruct (find_loop n b') as [j|] eqn:Fl; [|subst k; discriminate]. subst j.
    apply find_loop_Some in Fl as (l1 & cols & l2 & Hc & _).
    destruct (index_of_In oitem_eqb oitem_eqb_spec (OL k) (new ++ extras)) as (p & ->); [|eauto].
    apply (Permutation_in _ (Permutation_sym P1)). destruct R1 as (_ & <- & _). apply order_loops_In.
    apply (Permutation_in _ (Permutation_sym (wf_refs b' W1))). apply in_map_iff. exists (k, cols). split; [reflexivity|]. rewrite Hc. apply in_elt.
  - destruct (mem oitem_eqb (ON name) extras) eqn:M2; [|eauto]. apply (mem_In _ oitem_eqb_spec) in M2.
    destruct (index_of_In oitem_eqb oitem_eqb_spec (ON name) (new ++ extras)) as (p & ->); [apply in_or_app; now right|eauto].
Qed.
