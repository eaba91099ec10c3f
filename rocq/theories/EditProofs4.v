From Coq Require Import String Ascii List NArith Bool Lia Arith.
From Verif Require Import PyBase PyFacts StarBlockModel ValidateModel CollectionModel CollectionProofs TreeModel TreeProofs EditModel EditSpec EditProofs EditProofs2 EditProofs3.
Import ListNotations.
Open Scope nat_scope.

(** ** Removal *)
Lemma goes_trans d a b c : goes d a b -> goes d b c -> goes d a c.
Proof. induction 1 as [|x y z Hc Hm _ IH]; [auto|]. intros H. eapply g_deep; eauto. Qed.
Lemma goes_height d h a b : well_founded_cats d h -> goes d a b -> b = a \/ h b < h a.
Proof.
  intros W. induction 1 as [|x y z Hc Hm _ IH]; [now left|]. right. specialize (W x y Hc Hm). destruct IH as [->|]; lia.
Qed.
Definition fewer (G : str -> Prop) (d d' : ddic) : Prop := forall k s, says d' k s <-> says d k s /\ ~ G k.
Lemma fewer_catdef G d d' c : fewer G d d' -> (catdef d' c <-> catdef d c /\ ~ G c).
Proof.
  intros F. unfold catdef. split.
  - intros (t & S & E). apply F in S as (S & N). split; [eauto|exact N].
  - intros ((t & S & E) & N). exists t. split; [apply F; now split|exact E].
Qed.
Lemma fewer_member G d d' c a : fewer G d d' -> (member d' c a <-> member d c a /\ ~ G a).
Proof.
  intros F. unfold member. split.
  - intros (t & s & S & E). apply F in S as (S & N). split; [eauto|exact N].
  - intros ((t & s & S & E) & N). exists t, s. split; [apply F; now split|exact E].
Qed.
Lemma fewer_goes G d d' b k : fewer G d d' -> (forall x y, G x -> goes d x y -> G y) -> ~ G k -> (goes d' b k <-> goes d b k).
Proof.
  intros F Cl Nk. split.
  - induction 1 as [|x y z Hc Hm _ IH]; [constructor|]. apply (fewer_catdef G d d' _ F) in Hc. apply (fewer_member G d d' _ _ F) in Hm.
    eapply g_deep; [apply Hc|apply Hm|now apply IH].
  - induction 1 as [|x y z Hc Hm Hg IH]; [constructor|]. apply (g_deep _ x y).
    + apply (fewer_catdef G d d' _ F). split; [exact Hc|]. intros X. apply Nk. apply (Cl x z X). eapply g_deep; eauto.
    + apply (fewer_member G d d' _ _ F). split; [exact Hm|]. intros X. apply Nk. apply (Cl y z X Hg).
    + now apply IH.
Qed.
Lemma flat_nobody d k : in_order d -> flat d -> isid d k = true -> nobody_in d k.
Proof.
  intros O F I x e E P. apply (F k x); [now apply isid_iff|]. apply within_chd; [exact O|]. eauto.
Qed.
Definition shrinks (d d' : ddic) : Prop := (forall k, isid d' k = true -> isid d k = true) /\ forall k e, chd d' k = Some e -> chd d k = Some e.
Lemma flat_shrinks d d' : in_order d -> in_order d' -> flat d -> shrinks d d' -> flat d'.
Proof.
  intros O O' F (A & B) k x I W. apply within_chd in W as (e & E & P); [|exact O']. apply (F k x).
  - apply isid_iff, A, isid_iff, I.
  - apply within_chd; [exact O|]. eauto.
Qed.
Lemma fewer_texts G d d' : fewer G d d' -> texts d -> texts d'.
Proof. intros F T k t v S. apply F in S as (S & _). now apply T with (k := k). Qed.
Lemma fewer_wf G d d' h : fewer G d d' -> well_founded_cats d h -> well_founded_cats d' h.
Proof. intros F W c a Hc Hm. apply (fewer_catdef G d d' _ F) in Hc as (Hc & _). apply (fewer_member G d d' _ _ F) in Hm as (Hm & _). now apply W. Qed.
Lemma says_isid d k s : in_order d -> says d k s -> isid d k = true.
Proof. intros O S. now apply says_iff in S. Qed.
Lemma isid_says d k : in_order d -> isid d k = true -> exists s, says d k s.
Proof. intros O I. destruct (proj1 (blk_some d O k) (isid_blk d O k I)) as ((t, o) & E). exists t. apply says_iff; eauto. Qed.
Lemma fewer_named G d d' : in_order d -> in_order d' -> fewer G d d' -> named d -> named d'.
Proof.
  intros O O' F (A & B). split.
  - intros c t S C. apply (fewer_catdef G d d' _ F) in C as (C & _). apply F in S as (S & _). eauto.
  - intros I. apply isid_iff in I. destruct (isid_says d' [] O' I) as (s & S). apply F in S as (S & _). apply B. apply isid_iff. now apply says_isid in S.
Qed.
Lemma is_category_iff t : is_category t = true <-> tget (u "_definition.scope") t = Some (VStr (u "Category")).
Proof. apply veq_text_spec. Qed.

Lemma remove_ok h : forall n x d, in_order d -> texts d -> flat d -> named d -> well_founded_cats d h -> h (lower x) < n ->
  exists d', remove_definition n x d = (d', Ret tt) /\ in_order d' /\ shrinks d d' /\ fewer (goes d (lower x)) d d'.
Proof.
  induction n as [|n IH]; intros x d O T F Nm W Hn; [lia|]. cbn [remove_definition].
  unfold k_has. fold (isid d (lower x)). destruct (isid d (lower x)) eqn:I; cbn [negb].
  2:{ exists d. split; [reflexivity|]. split; [exact O|]. split; [now split|]. intros k s. split; [|now intros (S & _)]. intros S. split; [exact S|].
      intros G. inversion G as [|c a k' (t & S' & _) _ _]; subst; [apply says_isid in S|apply says_isid in S']; congruence. }
  destruct (isid_says d _ O I) as (t & S). pose proof S as S'. apply says_iff in S' as (_ & ov & E); [|exact O].
  rewrite (table_ok d O x t ov E). cbn [look]. destruct (is_category t) eqn:Ic.
  2:{ cbn [then_]. rewrite (del_step x d O (isid_blk d O _ I) (flat_nobody d _ O F I)). destruct (drop_views (lower x) d O) as (O' & V).
      eexists. split; [reflexivity|]. split; [exact O'|]. split.
      - split; intros k; destruct (V k) as (_ & V2 & V3).
        + rewrite V3. destruct (str_eqb k (lower x)); [discriminate|auto].
        + intros e. rewrite V2. destruct (str_eqb k (lower x)); [discriminate|auto].
      - intros k s. rewrite (says_iff _ O'), (says_iff d O). destruct (V k) as (-> & _ & ->). destruct (str_eqb_spec k (lower x)) as [->|N].
        + split; [intros (X & _); discriminate|]. intros (_ & X). contradiction X. constructor.
        + split; [|now intros (X & _)]. intros X. split; [exact X|]. intros G. inversion G as [|c a k' (t0 & S0 & E0) _ _]; subst; [contradiction|].
          rewrite (says_fun d _ t0 t O S0 S) in E0. apply is_category_iff in E0. congruence. }
  assert (Cx : catdef d (lower x)) by (exists t; split; [exact S|now apply is_category_iff]).
  assert (Nx : lower x <> []) by (intros X; rewrite X in I; apply isid_iff in I; now apply (proj2 Nm)).
  rewrite (children_ok x d O T). cbn [look]. set (kids := filter (cat_is d x) (k_keys d)).
  assert (Kids : forall a, In a kids <-> member d (lower x) a) by (intros a; now apply cat_is_member).
  assert (L : forall l, (forall a, In a l -> In a kids) -> forall (G : str -> Prop) d0, in_order d0 -> shrinks d d0 -> fewer G d d0 -> (forall a b, G a -> goes d a b -> G b) ->
    exists d', each (remove_definition n) l d0 = (d', Ret tt) /\ in_order d' /\ shrinks d d' /\ fewer (fun k => G k \/ exists b, In b l /\ goes d b k) d d').
  { induction l as [|b r IHl]; intros Hl G d0 O0 Sh0 F0 Cl; cbn [each].
    - exists d0. split; [reflexivity|]. split; [exact O0|]. split; [exact Sh0|]. intros k s. rewrite (F0 k s). split; intros (A & B); (split; [exact A|]); [intros [C|(b & [] & _)]; now apply B|intros C; apply B; now left].
    - pose proof (proj1 (Kids b) (Hl b (or_introl eq_refl))) as Mb. assert (Lb : lower b = b).
      { destruct Mb as (tb & sb & Sb & _). apply (isid_low d O). now apply says_isid in Sb. }
      destruct (IH b d0 O0 (fewer_texts G d d0 F0 T) (flat_shrinks d d0 O O0 F Sh0) (fewer_named G d d0 O O0 F0 Nm) (fewer_wf G d d0 h F0 W)) as (d1 & E1 & O1 & Sh1 & F1).
      { rewrite Lb. specialize (W _ _ Cx Mb). lia. }
      rewrite E1. cbn [then_]. rewrite Lb in F1.
      assert (F1' : fewer (fun k => G k \/ goes d b k) d d1).
      { intros k s. rewrite (F1 k s), (F0 k s). split.
        - intros ((A & B) & C). split; [exact A|]. intros [D|D]; [now apply B|]. apply C. now apply (fewer_goes G d d0 b k F0 Cl B).
        - intros (A & B). assert (NG : ~ G k) by (intros X; apply B; now left). split; [now split|]. intros C. apply B. right. now apply (fewer_goes G d d0 b k F0 Cl NG). }
      destruct (IHl (fun a X => Hl a (or_intror X)) (fun k => G k \/ goes d b k) d1 O1) as (d' & E' & O' & Sh' & F').
      { destruct Sh0 as (A & B), Sh1 as (A1 & B1). split; auto. }
      { exact F1'. }
      { intros a c [X|X] Y; [left; eapply Cl; eauto|right; eapply goes_trans; eauto]. }
      exists d'. split; [exact E'|]. split; [exact O'|]. split; [exact Sh'|]. intros k s. rewrite (F' k s). split; intros (A & B); (split; [exact A|]).
      + intros [C|(c & [<-|C] & D)]; apply B; [now left; left|now left; right|right; eauto].
      + intros [[C|C]|(c & C & D)]; apply B; [now left|right; exists b; split; [now left|exact C]|right; exists c; split; [now right|exact D]]. }
  destruct (L kids (fun a X => X) (fun _ => False) d O) as (d1 & E1 & O1 & Sh1 & F1); [now split| |now intros ? ? []|].
  { intros k s. tauto. }
  rewrite E1. cbn [then_].
  assert (S1 : says d1 (lower x) t).
  { apply F1. split; [exact S|]. intros [[]|(b & Ib & Gb)]. apply Kids in Ib. pose proof (W _ _ Cx Ib) as Hh. destruct (goes_height d h b _ W Gb) as [Q|Q]; [rewrite Q in Hh|]; lia. }
  pose proof S1 as S1'. apply says_iff in S1' as (I1 & o1 & B1); [|exact O1].
  destruct (proj1 Nm (lower x) t S Cx) as (v & Ev).
  rewrite (item_ok d1 O1 x a_def t o1 (VStr v) B1 Ev). cbn [look then_].
  pose proof (flat_shrinks d d1 O O1 F Sh1) as Fl1.
  rewrite (del_step x d1 O1 (isid_blk d1 O1 _ I1) (flat_nobody d1 _ O1 Fl1 I1)). destruct (drop_views (lower x) d1 O1) as (O' & V).
  eexists. split; [reflexivity|]. split; [exact O'|]. split.
  - destruct Sh1 as (A & B). split; intros k; destruct (V k) as (_ & V2 & V3).
    + rewrite V3. destruct (str_eqb k (lower x)); [discriminate|auto].
    + intros e. rewrite V2. destruct (str_eqb k (lower x)); [discriminate|auto].
  - intros k s. transitivity (says d1 k s /\ k <> lower x).
    + rewrite (says_iff _ O'), (says_iff d1 O1). destruct (V k) as (-> & _ & ->). destruct (str_eqb_spec k (lower x)) as [->|N]; [|tauto].
      split; [intros (X & _); discriminate|]. intros (_ & X). contradiction.
    + rewrite (F1 k s). split.
      * intros ((A & B) & N). split; [exact A|]. intros G. inversion G as [|c a k' Hc Hm Hg]; subst; [contradiction|]. apply B. right. exists a. split; [now apply Kids|exact Hg].
      * intros (A & B). split; [split; [exact A|]|].
        -- intros [[]|(b & Ib & Gb)]. apply B. apply (g_deep d _ b); [exact Cx|now apply Kids|exact Gb].
        -- intros ->. apply B. constructor.
Qed.
