From Coq Require Import String Ascii List NArith Bool Lia Arith.
From Verif Require Import PyBase PyFacts StarBlockModel ValidateModel CollectionModel CollectionProofs TreeModel TreeProofs EditModel EditSpec EditProofs EditProofs2.
Import ListNotations.
Open Scope nat_scope.

(** ** The members of a category *)
Lemma filterM_all {A} (f : A -> outcome bool) (g : A -> bool) l : (forall x, In x l -> f x = Ret (g x)) -> filterM f l = Ret (filter g l).
Proof.
  induction l as [|x r IH]; intros H; [reflexivity|]. cbn [filterM filter]. rewrite (H x) by now left. cbn [obind].
  rewrite IH by (intros y I; apply H; now right). cbn [obind]. now destruct (g x).
Qed.
Definition cat_is (d : ddic) (c a : str) : bool :=
  match blk d a with
  | Some (t, _) => match tget a_category t with Some (VStr s) => str_eqb (lower s) (lower c) | _ => str_eqb [] (lower c) end
  | None => false
  end.
Lemma children_ok c d : in_order d -> texts d -> k_children c d = Ret (filter (cat_is d c) (k_keys d)).
Proof.
  intros O T. unfold k_children. apply filterM_all. intros a I. apply isid_iff in I. pose proof (isid_low d O a I) as La.
  destruct (proj1 (blk_some d O a) (isid_blk d O a I)) as ((t, o) & E).
  rewrite (table_ok d O a t o) by (rewrite La; exact E). cbn [obind]. unfold cat_of, cat_is. rewrite E.
  destruct (tget a_category t) as [v|] eqn:V; [|reflexivity].
  destruct (T a t v) as (s & ->); [apply says_iff; eauto|exact V|]. reflexivity.
Qed.
Lemma cat_is_member c d a : in_order d -> texts d -> lower c <> [] -> (In a (filter (cat_is d c) (k_keys d)) <-> member d (lower c) a).
Proof.
  intros O T Nc. rewrite filter_In. unfold cat_is, member. split.
  - intros (I & M). apply isid_iff in I. destruct (blk d a) as [(t, o)|] eqn:E; [|discriminate].
    assert (Sa : says d a t) by (apply says_iff; eauto).
    destruct (tget a_category t) as [v|] eqn:V; [|destruct (str_eqb_spec [] (lower c)); congruence].
    destruct (T a t v Sa V) as (s & ->). exists t, s. split; [exact Sa|]. split; [exact V|]. destruct (str_eqb_spec (lower s) (lower c)); congruence.
  - intros (t & s & Sa & V & L). pose proof Sa as Sb. apply says_iff in Sb as (I & o & E); [|exact O]. split; [now apply isid_iff|].
    rewrite E. change a_category with (u "_name.category_id"). rewrite V, L. apply eqb_same.
Qed.
Lemma says_fun d k t s : in_order d -> says d k t -> says d k s -> t = s.
Proof. intros O A B. apply says_iff in A as (_ & o & A), B as (_ & o' & B); try exact O. congruence. Qed.

(** ** Moving one member *)
Definition open_at (d : ddic) (k : str) (t : table) : Prop := isid d k = true /\ blk d k = Some (t, true).
Lemma tl_catobj n o : tl (catobj_name n o) = n ++ u "." ++ o.
Proof. reflexivity. Qed.
Lemma dotted_not_nil n o : n ++ u "." ++ o <> [].
Proof. destruct n; discriminate. Qed.
Lemma move_step new a d t : in_order d -> lower a = a -> open_at d a t ->
  (itemdef t -> exists o, tget a_object t = Some (VStr o) /\ ~ In (lower (new ++ u "." ++ o)) (map fst (k_blocks d))) ->
  exists d' k t', move_child new a d = (d', Ret tt) /\ in_order d' /\ moved new a t k t' /\ open_at d' k t'
    /\ (k = a \/ (~ In k (map fst (k_blocks d)) /\ isid d' a = false /\ blk d' a = None))
    /\ (forall x, x <> a -> x <> k -> isid d' x = isid d x /\ blk d' x = blk d x).
Proof.
  intros O La (I & E) Ho. unfold move_child.
  assert (E0 : blk d (lower a) = Some (t, true)) by (rewrite La; exact E).
  destruct (set_step a a_category (VStr new) d t true O E0) as (d1 & E1 & O1 & B1 & C1 & D1 & _); [now right|].
  rewrite E1. cbn [then_]. rewrite La in B1. set (t1 := dset str_eqb (lower a_category) (VStr new) t) in *.
  assert (Ea : blk d1 a = Some (t1, true)) by (rewrite B1, eqb_same; reflexivity).
  assert (Ea' : blk d1 (lower a) = Some (t1, true)) by (rewrite La; exact Ea).
  rewrite (table_ok d1 O1 a t1 true Ea'). cbn [look].
  assert (Si : is_item t1 = is_item t) by (unfold is_item, t1; rewrite tget_set; reflexivity).
  assert (So : tget a_object t1 = tget a_object t) by (unfold t1; rewrite tget_set; reflexivity).
  rewrite Si. destruct (is_item t) eqn:It.
  - apply is_item_iff in It. destruct (Ho It) as (o & Eo & No). rewrite (item_ok d1 O1 a a_object t1 true (VStr o) Ea') by (rewrite So; exact Eo).
    cbn [obind as_text look]. rewrite tl_catobj.
    destruct (set_step a a_def (VStr (catobj_name new o)) d1 t1 true O1 Ea') as (d2 & E2 & O2 & B2 & C2 & D2 & _); [now right|].
    rewrite E2. cbn [then_]. rewrite La in B2. set (t2 := dset str_eqb (lower a_def) _ t1) in *. set (k := new ++ u "." ++ o) in *.
    assert (Nak : a <> lower k). { intros X. apply No. rewrite <- X. now apply isid_blk. }
    destruct (rename_step a k d2 O2) as (e & i & Ee & Ei & d3 & E3 & O3 & B3 & C3 & D3).
    { rewrite La, D2, D1. exact I. }
    { apply blk_none. rewrite B2, B1. rewrite eqb_diff by congruence. now apply blk_none. }
    { apply dotted_not_nil. }
    rewrite La in *. rewrite B2, eqb_same in Ee. injection Ee as <-.
    exists d3, (lower k), t2. split; [exact E3|]. split; [exact O3|]. split.
    { apply mv_item; [exact It|exact Eo|]. split.
      - intros b v [[= <- <-]|[[= <- <-]|[]]]; unfold t2, t1; rewrite !tget_set; reflexivity.
      - intros b Nb. unfold t2, t1. rewrite !tget_set. rewrite eqb_diff by (intros X; apply Nb; right; left; symmetry; exact X).
        rewrite eqb_diff by (intros X; apply Nb; left; symmetry; exact X). reflexivity. }
    split; [split; [now rewrite D3, eqb_same|now rewrite B3, eqb_same]|]. split.
    { right. split; [exact No|]. rewrite D3, B3. rewrite !(eqb_diff a (lower k)) by exact Nak. rewrite eqb_same. auto. }
    intros x Na Nk. rewrite D3, B3, B2, B1, D2, D1. rewrite !(eqb_diff x) by assumption. auto.
  - exists d1, a, t1. split; [reflexivity|]. split; [exact O1|]. split.
    { apply mv_cat; [rewrite <- is_item_iff; congruence|]. split.
      - intros b v [[= <- <-]|[]]; unfold t1; rewrite !tget_set; reflexivity.
      - intros b Nb. unfold t1. rewrite !tget_set. rewrite eqb_diff by (intros X; apply Nb; left; symmetry; exact X). reflexivity. }
    split; [split; [now rewrite D1|exact Ea]|]. split; [now left|]. intros x Na _. rewrite B1, D1, eqb_diff by exact Na. auto.
Qed.

(** ** Moving all members *)
Definition new_key (new : str) (t : table) : option str :=
  if is_item t then match tget a_object t with Some (VStr o) => Some (lower (new ++ u "." ++ o)) | _ => None end else None.
Lemma moved_key new a t k t' : moved new a t k t' -> match new_key new t with Some k' => k = k' | None => k = a end.
Proof.
  unfold new_key. intros [o t1 Hi Ho _|t1 Hi _].
  - apply is_item_iff in Hi. rewrite Hi. change a_object with (u "_name.object_id"). now rewrite Ho.
  - rewrite <- is_item_iff in Hi. apply not_true_is_false in Hi. now rewrite Hi.
Qed.
Lemma says_open d k t : in_order d -> open_at d k t -> says d k t.
Proof. intros O (A & B). apply says_iff; eauto. Qed.
Lemma moves new : forall l d, in_order d -> NoDup l -> (forall a, In a l -> lower a = a /\ exists t, open_at d a t) ->
  (forall a t, In a l -> says d a t -> itemdef t -> exists o, tget a_object t = Some (VStr o)) ->
  (forall a t k, In a l -> says d a t -> new_key new t = Some k -> ~ In k (map fst (k_blocks d))) ->
  (forall a b ta tb k, In a l -> In b l -> says d a ta -> says d b tb -> new_key new ta = Some k -> new_key new tb = Some k -> a = b) ->
  exists d', each (move_child new) l d = (d', Ret tt) /\ in_order d'
    /\ (forall a t, In a l -> says d a t -> exists k s, moved new a t k s /\ says d' k s)
    /\ (forall k s, says d' k s -> (exists a t, In a l /\ says d a t /\ moved new a t k s) \/ (~ In k l /\ says d k s))
    /\ (forall k, ~ In k l -> isid d k = true -> isid d' k = true /\ blk d' k = blk d k).
Proof.
  induction l as [|a r IH]; intros d O N Hop Hob Hfr Hdi; cbn [each].
  - exists d. split; [reflexivity|]. split; [exact O|]. split; [intros a t []|]. split; [|auto]. intros k s H. right. auto.
  - apply NoDup_cons_iff in N as (Na & Nr). destruct (Hop a (or_introl eq_refl)) as (La & t & Ha). pose proof (says_open d a t O Ha) as Sa.
    destruct (move_step new a d t O La Ha) as (d1 & k & t' & E1 & O1 & M & Hk & Hka & Rest).
    { intros Hi. destruct (Hob a t (or_introl eq_refl) Sa Hi) as (o & Eo). exists o. split; [exact Eo|]. apply (Hfr a t); [now left|exact Sa|].
      unfold new_key. apply is_item_iff in Hi. now rewrite Hi, Eo. }
    rewrite E1. cbn [then_].
    assert (Kr : forall b, In b r -> b <> k).
    { intros b Ib ->. destruct Hka as [->|(X & _)]; [contradiction|]. destruct (Hop k (or_intror Ib)) as (_ & tb & Hb & _). apply X. now apply isid_blk. }
    assert (Ar : forall b, In b r -> b <> a) by (intros b Ib ->; contradiction).
    assert (Sr : forall b s, In b r -> (says d1 b s <-> says d b s)).
    { intros b s Ib. rewrite (says_iff d1 O1), (says_iff d O). destruct (Rest b (Ar b Ib) (Kr b Ib)) as (-> & ->). reflexivity. }
    assert (Bl : forall x, In x (map fst (k_blocks d1)) -> x = k \/ In x (map fst (k_blocks d))).
    { intros x Ix. apply (blk_some d1 O1) in Ix as (e & Ee). destruct (list_eq_dec N.eq_dec x k) as [->|Nk]; [now left|right].
      destruct (list_eq_dec N.eq_dec x a) as [->|Nx].
      - apply isid_blk; [exact O|]. apply Ha.
      - apply (blk_some d O). exists e. rewrite <- Ee. symmetry. now apply Rest. }
    destruct (IH d1 O1 Nr) as (d' & E' & O' & A & B & C).
    { intros b Ib. destruct (Hop b (or_intror Ib)) as (Lb & tb & Hb). split; [exact Lb|]. exists tb. unfold open_at in *.
      destruct (Rest b (Ar b Ib) (Kr b Ib)) as (-> & ->). exact Hb. }
    { intros b s Ib Sb. apply (Hob b s (or_intror Ib)). now apply Sr. }
    { intros b s kb Ib Sb Kb J. apply Sr in Sb; [|exact Ib]. apply Bl in J as [->|J].
      - pose proof (moved_key _ _ _ _ _ M) as MK. destruct (new_key new t) as [k1|] eqn:NK.
        + subst k1. apply (Ar b Ib). apply (Hdi b a s t k); auto; [now right|now left].
        + subst k. apply (Hfr b s a); [now right|exact Sb|exact Kb|]. apply isid_blk; [exact O|apply Ha].
      - now apply (Hfr b s kb (or_intror Ib)). }
    { intros b c tb tc kk Ib Ic Sb Sc. apply Sr in Sb; [|exact Ib]. apply Sr in Sc; [|exact Ic]. apply Hdi; auto; now right. }
    exists d'. split; [exact E'|]. split; [exact O'|]. split; [|split].
    + intros b tb [<-|Ib] Sb.
      * rewrite (says_fun d a tb t O Sb Sa). exists k, t'. split; [exact M|].
        assert (Nk : ~ In k r) by (intros X; now apply (Kr k X)). destruct (C k Nk (proj1 Hk)) as (X & Y). apply says_iff; [exact O'|]. rewrite X, Y.
        split; [reflexivity|]. exists true. apply Hk.
      * apply (A b tb Ib). now apply Sr.
    + intros x s Sx. apply B in Sx as [(b & tb & Ib & Sb & Mb)|(Nx & Sx)].
      * left. exists b, tb. split; [now right|]. split; [now apply Sr|exact Mb].
      * destruct (list_eq_dec N.eq_dec x k) as [->|Nxk].
        -- left. exists a, t. split; [now left|]. split; [exact Sa|]. now rewrite (says_fun d1 k s t' O1 Sx (says_open d1 k t' O1 Hk)).
        -- destruct (list_eq_dec N.eq_dec x a) as [->|Nxa].
           ++ exfalso. destruct Hka as [->|(_ & X & _)]; [contradiction|]. apply says_iff in Sx as (Y & _); [congruence|exact O1].
           ++ right. split; [intros [->|X]; contradiction|]. apply says_iff in Sx; [|exact O1]. apply says_iff; [exact O|].
              destruct (Rest x Nxa Nxk) as (<- & <-). exact Sx.
    + intros x Nx Ix. assert (Nxa : x <> a) by (intros ->; apply Nx; now left). assert (Nxr : ~ In x r) by (intros X; apply Nx; now right).
      assert (Nxk : x <> k). { intros ->. destruct Hka as [->|(X & _)]; [contradiction|]. apply X. now apply isid_blk. }
      destruct (Rest x Nxa Nxk) as (P & Q). destruct (C x Nxr) as (R & S); [now rewrite P|]. split; [exact R|]. now rewrite S.
Qed.

(** ** change_category_name *)
Theorem change_category_name_works old new d t : in_order d -> texts d -> says d (lower old) t -> lower old <> [] -> new <> [] ->
  ~ In (lower new) (map fst (k_blocks d)) -> ~ member d (lower old) (lower old) -> objects d (lower old) ->
  (forall a s o, member d (lower old) a -> says d a s -> tget a_object s = Some (VStr o) -> ~ In (lower (new ++ u "." ++ o)) (map fst (k_blocks d)) /\ lower (new ++ u "." ++ o) <> lower new) ->
  exists d' t', change_category_name old new d = (d', Ret tt) /\ in_order d' /\ locked d'
    /\ changed [(a_def, VStr new); (a_object, VStr new)] t t' /\ says d' (lower new) t'
    /\ (forall a s, member d (lower old) a -> says d a s -> exists k s', moved new a s k s' /\ says d' k s')
    /\ (forall k s, k <> lower old -> ~ member d (lower old) k -> says d k s -> says d' k s)
    /\ (forall k s, says d' k s -> k = lower new /\ s = t' \/ (exists a s0, member d (lower old) a /\ says d a s0 /\ moved new a s0 k s)
         \/ k <> lower old /\ ~ member d (lower old) k /\ says d k s).
Proof.
  intros O T So No Nn Hn Hself (Ob1 & Ob2) Hfr. pose proof So as So'. apply (says_iff d O) in So' as (I & ov & E).
  unfold change_category_name.
  destruct (flags_step true d O) as (d1 & E1 & O1 & B1 & C1 & D1 & F1). rewrite E1. cbn [then_].
  assert (S1 : forall k s, says d1 k s <-> says d k s).
  { intros k s. rewrite (says_iff d1 O1), (says_iff d O), D1, B1. split; intros (A & o & B).
    - split; [exact A|]. destruct (blk d k) as [(t0, o0)|]; [|discriminate]. injection B as <- _. eauto.
    - split; [exact A|]. rewrite B. eauto. }
  assert (Mem : forall c a, member d1 c a <-> member d c a).
  { intros c a. unfold member. split; intros (s & v & X & Y & Z); exists s, v; (split; [now apply S1|auto]). }
  assert (T1 : texts d1) by (intros k s v X; apply T with (k := k); now apply S1).
  unfold k_has. fold (isid d1 (lower old)). rewrite D1, I. cbn [negb]. fold (isid d1 (lower new)). rewrite D1.
  assert (Nid : isid d (lower new) = false). { destruct (isid d (lower new)) eqn:X; [|reflexivity]. exfalso. apply Hn. now apply isid_blk. }
  rewrite Nid. rewrite (children_ok old d1 O1 T1). cbn [look]. set (kids := filter (cat_is d1 old) (k_keys d1)).
  assert (Kids : forall a, In a kids <-> member d (lower old) a). { intros a. unfold kids. rewrite (cat_is_member old d1 a O1 T1 No). apply Mem. }
  assert (Nk : NoDup kids) by (apply NoDup_filter, (io_ids _ O1)).
  assert (Kid : forall a, In a kids -> exists s, says d a s). { intros a X. apply Kids in X as (s & _ & X & _). eauto. }
  destruct (rename_step old new d1 O1) as (e & i & Ee & Ei & d2 & E2 & O2 & B2 & C2 & D2); [now rewrite D1| |exact Nn|].
  { apply blk_none. rewrite B1. apply blk_none in Hn. now rewrite Hn. }
  rewrite E2. cbn [then_]. rewrite B1, E, I in Ee. injection Ee as <-.
  destruct (set_step new a_object (VStr new) d2 t true O2) as (d3 & E3 & O3 & B3 & C3 & D3 & F3).
  { now rewrite B2, eqb_same. } { now right. }
  rewrite E3. cbn [then_].
  destruct (set_step new a_def (VStr new) d3 (dset str_eqb (lower a_object) (VStr new) t) true O3) as (d4 & E4 & O4 & B4 & C4 & D4 & F4).
  { now rewrite B3, eqb_same. } { now right. }
  rewrite E4. cbn [then_]. set (t' := dset str_eqb (lower a_def) (VStr new) (dset str_eqb (lower a_object) (VStr new) t)) in *.
  assert (Non : lower old <> lower new). { intros X. apply Hn. rewrite <- X. now apply isid_blk. }
  assert (V4 : forall x, x <> lower old -> x <> lower new -> isid d4 x = isid d x /\ blk d4 x = blk d1 x).
  { intros x A B. rewrite D4, D3, D2, D1, B4, B3, B2. rewrite !(eqb_diff x) by assumption. auto. }
  assert (S4 : forall k s, k <> lower old -> k <> lower new -> (says d4 k s <-> says d k s)).
  { intros k s A B. rewrite <- S1, (says_iff d4 O4), (says_iff d1 O1), D1. destruct (V4 k A B) as (-> & ->). reflexivity. }
  assert (New4 : open_at d4 (lower new) t').
  { split; [rewrite D4, D3, D2, eqb_same; reflexivity|rewrite B4, eqb_same; reflexivity]. }
  assert (Old4 : isid d4 (lower old) = false). { rewrite D4, D3, D2. rewrite eqb_diff by exact Non. now rewrite eqb_same. }
  assert (Ko : forall a, In a kids -> a <> lower old) by (intros a X ->; apply Hself; now apply Kids).
  assert (Kn : forall a, In a kids -> a <> lower new).
  { intros a X ->. destruct (Kid _ X) as (s & Y). apply says_iff in Y as (Y & _); [congruence|exact O]. }
  assert (Sk : forall a s, In a kids -> (says d4 a s <-> says d a s)) by (intros a s X; apply S4; auto).
  destruct (moves new kids d4 O4 Nk) as (d5 & E5 & O5 & A5 & B5 & C5).
  { intros a X. destruct (Kid a X) as (s & Y). pose proof Y as Z. apply says_iff in Z as (Z & o & W); [|exact O]. split; [now apply isid_low in Z|].
    exists s. unfold open_at. destruct (V4 a (Ko a X) (Kn a X)) as (-> & ->). split; [exact Z|]. now rewrite B1, W, Z. }
  { intros a s X Y. apply (Ob1 a s); [now apply Kids|now apply Sk]. }
  { intros a s k X Y Z J. apply Sk in Y; [|exact X]. unfold new_key in Z. destruct (is_item s) eqn:Q; [|discriminate].
    destruct (tget a_object s) as [v|] eqn:V; [|discriminate]. destruct v as [o| | | | |]; try discriminate Z. injection Z as <-.
    destruct (Hfr a s o) as (P & R); [now apply Kids|exact Y|exact V|]. apply (blk_some d4 O4) in J as (e & J). apply P. apply (blk_some d O).
    destruct (list_eq_dec N.eq_dec (lower (new ++ u "." ++ o)) (lower old)) as [->|No'].
    - exists (t, ov). exact E.
    - destruct (V4 _ No' R) as (_ & Q'). assert (J' : blk d1 (lower (new ++ u "." ++ o)) = Some e) by (rewrite <- Q'; exact J). rewrite B1 in J'. match type of J' with context [blk d ?z] => destruct (blk d z) as [e0|] eqn:Z0; [exists e0; reflexivity|discriminate] end. }
  { intros a b ta tb k X Y Z W. apply Sk in Z; [|exact X]. apply Sk in W; [|exact Y]. unfold new_key.
    destruct (is_item ta) eqn:Ia; [|discriminate]. destruct (tget a_object ta) as [va|] eqn:Va; [|discriminate]. destruct va as [oa| | | | |]; try discriminate. intros [= <-].
    destruct (is_item tb) eqn:Ib; [|discriminate]. destruct (tget a_object tb) as [vb|] eqn:Vb; [|discriminate]. destruct vb as [ob| | | | |]; try discriminate. intros [= Q].
    apply is_item_iff in Ia, Ib. apply (Ob2 a b ta tb oa ob); auto; [now apply Kids|now apply Kids|].
    unfold lower in *. rewrite !map_app in Q. apply app_inv_head in Q. injection Q as Q. now symmetry. }
  rewrite E5. cbn [then_].
  destruct (flags_step false d5 O5) as (d6 & E6 & O6 & B6 & C6 & D6 & F6). rewrite E6.
  assert (S6 : forall k s, says d6 k s <-> says d5 k s).
  { intros k s. rewrite (says_iff d6 O6), (says_iff d5 O5), D6, B6. split; intros (A & o & B).
    - split; [exact A|]. destruct (blk d5 k) as [(t0, o0)|]; [|discriminate]. injection B as <- _. eauto.
    - split; [exact A|]. rewrite B. eauto. }
  exists d6, t'. split; [reflexivity|]. split; [exact O6|]. split; [eapply locked_of; [exact O5|exact O6| |]; auto|].
  split; [|split; [|split; [|split]]].
  - split.
    + intros a v [[= <- <-]|[[= <- <-]|[]]]; unfold t'; rewrite !tget_set; reflexivity.
    + intros b Nb. unfold t'. rewrite !tget_set. rewrite eqb_diff by (intros X; apply Nb; left; symmetry; exact X).
      rewrite eqb_diff by (intros X; apply Nb; right; left; symmetry; exact X). reflexivity.
  - apply S6. apply says_iff; [exact O5|]. destruct (C5 (lower new)) as (X & Y); [intros X; now apply (Kn _ X)|apply New4|]. rewrite X, Y. split; [reflexivity|]. exists true. apply New4.
  - intros a s M Sa. destruct (A5 a s) as (k & s' & M' & S'); [now apply Kids|apply Sk; [now apply Kids|exact Sa]|]. exists k, s'. split; [exact M'|now apply S6].
  - intros k s A B Sk'. apply S6. pose proof Sk' as Z. apply says_iff in Z as (Z & o & W); [|exact O].
    assert (Nkn : k <> lower new) by (intros ->; congruence). destruct (V4 k A Nkn) as (P & Q).
    destruct (C5 k) as (X & Y); [rewrite Kids; exact B|now rewrite P|]. apply says_iff; [exact O5|]. rewrite X, Y, Q, B1, W. split; [reflexivity|eauto].
  - intros k s Sx. apply S6, B5 in Sx as [(a & s0 & Ia & Sa & M)|(Nk' & Sx)].
    + right. left. exists a, s0. split; [now apply Kids|]. split; [now apply Sk|exact M].
    + destruct (list_eq_dec N.eq_dec k (lower new)) as [->|Nkn].
      * left. split; [reflexivity|]. exact (says_fun d4 _ s t' O4 Sx (says_open d4 _ t' O4 New4)).
      * right. right. assert (Nko : k <> lower old) by (intros ->; apply says_iff in Sx as (X & _); [congruence|exact O4]).
        split; [exact Nko|]. split; [now rewrite <- Kids|]. now apply S4.
Qed.
