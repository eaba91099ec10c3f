From Coq Require Import String Ascii List NArith Bool Lia Permutation.
From Verif Require Import PyBase PyFacts StarBlockModel ValidateModel ValidateProofs ValidateProofs2 TreeModel TreeSpec.
Import ListNotations.
Open Scope nat_scope.

Lemma veq_text_spec o t : veq_text o t = true <-> o = Some (VStr t).
Proof.
  unfold veq_text. destruct o as [[s| | | | |]|]; try (split; discriminate). destruct (str_eqb_spec s t) as [->|N]; [split; reflexivity|]. split; [discriminate|]. intros E. injection E as ->. now elim N.
Qed.
Lemma defs_dget (d : defs) k t : NoDup (map fst d) -> (dget str_eqb k d = Some t <-> In (k, t) d).
Proof.
  intros N. induction d as [|[k' t'] d IH]; cbn [dget]; [split; [discriminate|intros []]|]. cbn [map fst] in N. inversion N as [|? ? H1 H2]; subst. specialize (IH H2). destruct (str_eqb_spec k k') as [->|Nk].
  - split; [intros E; injection E as ->; now left|]. intros [E|H]; [injection E as ->; reflexivity|]. elim H1. apply in_map_iff. now exists (k', t).
  - rewrite IH. split; [now right|]. intros [E|H]; [injection E as -> _; now elim Nk|exact H].
Qed.
Lemma cat_of_child d a c t : well_formed d -> In (a, t) d -> exists s, cat_of t = Ret s /\ (s = lower c <-> child d a c).
Proof.
  intros W Hin. unfold cat_of. assert (forall t', In (a, t') d -> t' = t) as Ut.
  { intros t' H. apply (defs_dget _ _ _ (w_keys _ W)) in Hin, H. rewrite Hin in H. now injection H. }
  destruct (tget a_category t) as [v|] eqn:E.
  - destruct (w_text _ W _ _ _ Hin E) as (s & ->). exists (lower s). split; [reflexivity|]. split.
    + intros Es. exists t. split; [exact Hin|]. left. now exists s.
    + intros (t' & H' & [(s' & E' & Es)|(E' & _)]); apply Ut in H'; subst t'; [change (tget a_category t = Some (VStr s')) in E'|change (tget a_category t = None) in E']; rewrite E in E'; [now injection E' as ->|discriminate].
  - exists []. split; [reflexivity|]. split.
    + intros Es. exists t. split; [exact Hin|]. right. split; [exact E|now symmetry].
    + intros (t' & H' & [(s' & E' & Es)|(E' & Ec)]); apply Ut in H'; subst t'; [change (tget a_category t = Some (VStr s')) in E'; rewrite E in E'; discriminate|now symmetry].
Qed.
Lemma filterM_spec {A} (f : A -> outcome bool) (P : A -> Prop) l : (forall x, In x l -> exists b, f x = Ret b /\ (b = true <-> P x)) ->
  exists r, filterM f l = Ret r /\ (forall x, In x r <-> In x l /\ P x) /\ (forall g : A -> str, NoDup (map g l) -> NoDup (map g r)).
Proof.
  induction l as [|x l IH]; intros H; [exists []; split; [reflexivity|]; split; [intros x; split; [intros []|intros [[] _]]|intros; constructor]|].
  destruct (H x (or_introl eq_refl)) as (b & E & B). destruct IH as (r & Er & Hr & Nr); [intros y Hy; apply H; now right|]. cbn [filterM]. rewrite E, Er. cbn [obind]. eexists. split; [reflexivity|]. destruct b.
  - split.
    + intros y. cbn [In]. rewrite Hr. split; [intros [<-|[K1 K2]]; [split; [now left|now apply B]|split; [now right|exact K2]]|intros [[<-|K1] K2]; [now left|right; now split]].
    + intros g N. cbn [map] in N |- *. inversion N as [|? ? H1 H2]; subst. constructor; [|now apply Nr]. intros K. apply H1. apply in_map_iff in K. destruct K as (y & Ey & Hy). apply Hr in Hy. rewrite <- Ey. now apply in_map.
  - split.
    + intros y. cbn [In]. rewrite Hr. split; [intros [K1 K2]; split; [now right|exact K2]|intros [[<-|K1] K2]; [apply B in K2; discriminate|now split]].
    + intros g N. apply Nr. cbn [map] in N. now inversion N.
Qed.
Lemma immediate_ok d c : well_formed d -> exists kids, immediate_children d c = Ret kids /\ NoDup kids /\ forall a, In a kids <-> child d a c.
Proof.
  intros W. unfold immediate_children.
  destruct (filterM_spec (fun kt => obind (cat_of (snd kt)) (fun c0 => Ret (str_eqb c0 (lower c)))) (fun kt => child d (fst kt) c) d) as (r & E & Hr & Nr).
  - intros [a t] Hin. cbn [fst snd]. destruct (cat_of_child d a c t W Hin) as (s & Es & Hs). rewrite Es. cbn [obind]. exists (str_eqb s (lower c)). split; [reflexivity|]. rewrite <- Hs. destruct (str_eqb_spec s (lower c)); split; auto; discriminate.
  - rewrite E. cbn [obind]. eexists. split; [reflexivity|]. split; [apply Nr; apply W|]. intros a. rewrite in_map_iff. split.
    + intros ((a' & t) & <- & H). now apply Hr in H.
    + intros H. pose proof H as (t & Hin & _). exists (a, t). split; [reflexivity|]. apply Hr. now split.
Qed.
Lemma category_spec d a : well_formed d -> (match dget str_eqb a d with Some t => is_category t | None => false end = true <-> category d a).
Proof.
  intros W. unfold category. destruct (dget str_eqb a d) as [t|] eqn:E.
  - unfold is_category. rewrite veq_text_spec. apply (defs_dget _ _ _ (w_keys _ W)) in E. split; [intros H; now exists t|]. intros (t' & H' & K). apply (defs_dget _ _ _ (w_keys _ W)) in E, H'. rewrite E in H'. injection H' as <-. exact K.
  - split; [discriminate|]. intros (t & H & _). apply (defs_dget _ _ _ (w_keys _ W)) in H. rewrite E in H. discriminate.
Qed.
(** The loop: the categories are replaced by what lies below them. *)
Lemma add_cats_ok rec cats : forall acc l, add_cats rec cats acc = Ret l -> NoDup cats -> incl cats acc -> NoDup acc ->
  exists subs, Forall2 (fun c s => rec c = Ret s) cats subs /\ l = filter (fun a => negb (smem a cats)) acc ++ concat subs.
Proof.
  assert (forall cats acc more l, add_cats rec cats (acc ++ more) = Ret l -> NoDup cats -> incl cats acc -> NoDup acc ->
    exists subs, Forall2 (fun c s => rec c = Ret s) cats subs /\ l = filter (fun a => negb (smem a cats)) acc ++ more ++ concat subs) as G.
  { clear cats. induction cats as [|c cats IH]; intros acc more l E Nc I Na; cbn [add_cats] in E.
    - injection E as <-. exists []. split; [constructor|]. cbn [concat]. rewrite app_nil_r. f_equal. clear. induction acc as [|x acc IH]; [reflexivity|]. cbn [filter smem mem existsb negb]. f_equal. exact IH.
    - destruct (rec c) as [s|] eqn:Er; [|discriminate]. cbn [obind] in E. inversion Nc as [|? ? H1 H2]; subst.
      assert (remove1 str_eqb c (acc ++ more) = filter (fun a => negb (str_eqb c a)) acc ++ more) as Erm.
      { assert (In c acc) as Hc by (apply I; now left). clear -Hc Na. induction acc as [|x acc IH]; [destruct Hc|]. cbn [app remove1 filter]. inversion Na as [|? ? Hx Na']; subst. destruct (str_eqb_spec c x) as [->|N]; cbn [negb].
        - f_equal. symmetry. clear IH Na Na' Hc. induction acc as [|y acc IH]; [reflexivity|]. cbn [filter]. destruct (str_eqb_spec x y) as [->|N]; [elim Hx; now left|]. cbn [negb]. f_equal. apply IH. intros K. apply Hx. now right.
        - cbn [app]. f_equal. apply IH; [exact Na'|destruct Hc as [<-|Hc]; [now elim N|exact Hc]]. }
      rewrite Erm, <- app_assoc in E. apply IH in E; [|exact H2| |].
      + destruct E as (subs & F & ->). exists (s :: subs). split; [constructor; assumption|]. cbn [concat]. rewrite <- app_assoc. f_equal.
        clear. induction acc as [|x acc IH]; [reflexivity|]. cbn [filter]. unfold smem, mem in *. cbn [existsb].
        assert (str_eqb x c = str_eqb c x) as -> by (destruct (str_eqb_spec x c), (str_eqb_spec c x); congruence). destruct (str_eqb c x); cbn [negb orb filter]; [exact IH|]. destruct (existsb (str_eqb x) cats); cbn [negb]; [exact IH|]. f_equal. exact IH.
      + intros x Hx. apply filter_In. split; [apply I; now right|]. destruct (str_eqb_spec c x) as [->|N]; [contradiction|reflexivity].
      + now apply NoDup_filter. }
  intros acc l E Nc I Na. specialize (G cats acc [] l). rewrite app_nil_r in G. destruct (G E Nc I Na) as (subs & F & ->). exists subs. now split.
Qed.
Theorem all_children_under n : forall d c l, well_formed d -> all_children n d c = Ret l -> forall a, In a l <-> under d c a.
Proof.
  induction n as [|n IH]; intros d c l W E; [discriminate|]. cbn [all_children] in E. destruct (immediate_ok d c W) as (kids & Ek & Nk & Hk). rewrite Ek in E. cbn [obind] in E. cbn zeta in E.
  set (cats := filter _ kids) in E. destruct (add_cats (all_children n d) cats kids) as [l0|] eqn:Ea; [|discriminate]. cbn [obind] in E. injection E as <-.
  assert (forall x, In x cats <-> child d x c /\ category d x) as Hc.
  { intros x. subst cats. rewrite filter_In, Hk. now rewrite (category_spec d x W). }
  destruct (add_cats_ok _ _ _ _ Ea) as (subs & F & ->); [now apply NoDup_filter|intros x Hx; now apply filter_In in Hx|exact Nk|].
  assert (forall a, In a (concat subs) <-> exists p, In p cats /\ under d p a) as Hs.
  { clear -F W IH. induction F as [|p s cats subs Hp _ IHF]; intros a; cbn [concat In]; [split; [intros []|intros (p & [] & _)]|]. rewrite in_app_iff, (IH d p s W Hp a), IHF. split.
    - intros [H|(q & Hq & H)]; [exists p; split; [now left|exact H]|exists q; split; [now right|exact H]].
    - intros (q & [<-|Hq] & H); [now left|right; now exists q]. }
  intros a. rewrite !in_app_iff, Hs, filter_In. cbn [In]. split.
  - intros [[[H _]|(p & Hp & H)]|[<-|[]]].
    + apply u_child. now apply Hk.
    + apply Hc in Hp. destruct Hp as [Hp1 Hp2]. now apply (u_deep d c p a).
    + apply u_self.
  - intros H. inversion H as [|? ? H1|? p ? H1 H2 H3]; subst; [right; now left| |].
    + left. destruct (smem a cats) eqn:Em; [right; exists a; split; [now apply smem_spec|apply u_self]|]. left. split; [now apply Hk|reflexivity].
    + left. right. exists p. split; [apply Hc; now split|exact H3].
Qed.
Theorem all_children_total n : forall d c height, well_formed d -> acyclic d height -> height (lower c) < n -> exists l, all_children n d c = Ret l.
Proof.
  induction n as [|n IH]; intros d c height W A L; [lia|]. cbn [all_children]. destruct (immediate_ok d c W) as (kids & Ek & Nk & Hk). rewrite Ek. cbn [obind]. cbn zeta.
  set (cats := filter _ kids). assert (forall x, In x cats -> exists s, all_children n d x = Ret s) as T.
  { intros x Hx. subst cats. apply filter_In in Hx. destruct Hx as [H1 H2]. apply Hk in H1. rewrite (category_spec d x W) in H2. apply (IH d x height W A). pose proof (A x c H1 H2) as Hh.
    destruct H1 as (t & Hin & _). rewrite (w_lower _ W _ _ Hin). lia. }
  assert (exists l, add_cats (all_children n d) cats kids = Ret l) as (l & El); [|rewrite El; cbn [obind]; now eexists].
  clearbody cats. clear -T. revert kids. induction cats as [|x cats IHc]; intros kids; [now exists kids|]. cbn [add_cats]. destruct (T x (or_introl eq_refl)) as (s & ->). cbn [obind]. apply IHc. intros y Hy. apply T. now right.
Qed.

(** ** Each descendant is listed once *)
Lemma child_key d a c : child d a c -> In a (map fst d).
Proof. intros (t & H & _). apply in_map_iff. now exists (a, t). Qed.
Lemma child_unique d a c c' : well_formed d -> child d a c -> child d a c' -> lower c = lower c'.
Proof.
  intros W (t & H & K) (t' & H' & K'). assert (t' = t) as ->. { apply (defs_dget _ _ _ (w_keys _ W)) in H, H'. rewrite H in H'. now injection H'. }
  destruct K as [(s & E & Es)|(E & Es)], K' as [(s' & E' & Es')|(E' & Es')]; rewrite E in E'; try discriminate; [injection E' as <-|]; congruence.
Qed.
Lemma key_lower d a : well_formed d -> In a (map fst d) -> lower a = a.
Proof. intros W H. apply in_map_iff in H. destruct H as ((k & t) & <- & H). now apply (w_lower _ W k t). Qed.
(** Reached from below. *)
Inductive below_of (d : defs) (c : str) : str -> Prop :=
| bo_self : below_of d c c
| bo_child q a : below_of d c q -> (q = c \/ category d q) -> child d a q -> below_of d c a.
Lemma under_below d c a : under d c a -> below_of d c a.
Proof.
  assert (forall c p a, child d p c -> category d p -> below_of d p a -> below_of d c a) as G.
  { intros c' p a' H1 H2 H3. induction H3 as [|q a' H3 IH H4 H5]; [apply (bo_child d c' c'); [constructor|now left|exact H1]|]. apply (bo_child d c' q); [exact IH| |exact H5]. right. destruct H4 as [->|H4]; assumption. }
  induction 1 as [c|c a H|c p a H1 H2 _ IH]; [constructor|apply (bo_child d c c); [constructor|now left|exact H]|]. now apply (G c p a).
Qed.
Lemma below_height d height c a : well_formed d -> acyclic d height -> below_of d c a -> a = c \/ (In a (map fst d) /\ (category d a -> height a < height (lower c))).
Proof.
  intros W A. induction 1 as [|q a H IH Hq Hc]; [now left|]. right. split; [now apply (child_key d a q)|]. intros Ha. pose proof (A a q Hc Ha) as L. destruct IH as [->|[Hk Hh]]; [exact L|]. rewrite (key_lower _ _ W Hk) in L. destruct Hq as [->|Hq]; [rewrite (key_lower _ _ W Hk); exact L|]. specialize (Hh Hq). lia.
Qed.
Lemma below_common d p p' a : well_formed d -> In p (map fst d) -> In p' (map fst d) -> below_of d p a -> below_of d p' a -> below_of d p p' \/ below_of d p' p.
Proof.
  intros W Kp Kp' H. induction H as [|q a H IH Hq Hc]; intros H'; [now right|]. inversion H' as [|q' ? H1 H2 H3]; subst.
  - left. now apply (bo_child d p q).
  - assert (forall x y, below_of d x y -> In x (map fst d) -> In y (map fst d)) as Key by (intros x y B Kx; inversion B; subst; [exact Kx|now apply (child_key d y q0)]).
    assert (q' = q) as ->. { rewrite <- (key_lower _ _ W (Key _ _ H Kp)), <- (key_lower _ _ W (Key _ _ H1 Kp')). now apply (child_unique d a). }
    now apply IH.
Qed.
Lemma disjoint_subs d height c p p' a : well_formed d -> acyclic d height -> child d p c -> child d p' c -> category d p -> category d p' -> p <> p' -> under d p a -> under d p' a -> False.
Proof.
  intros W A Hp Hp' Cp Cp' N H H'. apply under_below in H, H'.
  assert (forall p p', child d p c -> child d p' c -> category d p -> category d p' -> p <> p' -> below_of d p p' -> False) as G.
  { clear -W A. intros p p' Hp Hp' Cp Cp' N B. inversion B as [|q ? H1 H2 H3]; subst; [now elim N|]. pose proof (child_unique d p' c q W Hp' H3) as E.
    pose proof (A p c Hp Cp) as L. rewrite E in L. pose proof (key_lower _ _ W (child_key _ _ _ Hp)) as Lp.
    destruct (below_height d height p q W A H1) as [->|[Hk Hh]]; [rewrite Lp in L; lia|]. rewrite (key_lower _ _ W Hk) in L. destruct H2 as [->|H2]; [lia|]. specialize (Hh H2). rewrite Lp in Hh. lia. }
  destruct (below_common d p p' a W (child_key _ _ _ Hp) (child_key _ _ _ Hp') H H') as [B|B]; [now apply (G p p')|]. apply (G p' p); auto.
Qed.
Theorem all_children_once n : forall d c l height, well_formed d -> acyclic d height -> (In c (map fst d) -> category d c) -> all_children n d c = Ret l -> NoDup l.
Proof.
  induction n as [|n IH]; intros d c l height W A Cc E; [discriminate|]. pose proof E as E0. cbn [all_children] in E. destruct (immediate_ok d c W) as (kids & Ek & Nk & Hk). rewrite Ek in E. cbn [obind] in E. cbn zeta in E.
  set (cats := filter _ kids) in E. destruct (add_cats (all_children n d) cats kids) as [l0|] eqn:Ea; [|discriminate]. cbn [obind] in E. injection E as <-.
  assert (forall x, In x cats <-> child d x c /\ category d x) as Hc by (intros x; subst cats; rewrite filter_In, Hk; now rewrite (category_spec d x W)).
  destruct (add_cats_ok _ _ _ _ Ea) as (subs & F & ->); [now apply NoDup_filter|intros x Hx; now apply filter_In in Hx|exact Nk|].
  assert (NoDup cats) as Ncats by now apply NoDup_filter.
  assert (forall a, In a (concat subs) -> exists p, In p cats /\ under d p a) as Hs.
  { clear -F W. induction F as [|p s cats subs Hp _ IHF]; intros a; cbn [concat In]; [intros []|]. rewrite in_app_iff. intros [H|H]; [exists p; split; [now left|now apply (all_children_under n d p s W Hp)]|]. destruct (IHF a H) as (q & Hq & K). exists q. split; [now right|exact K]. }
  assert (NoDup (concat subs)) as Nsubs.
  { clear Ea E0 Hs. assert (forall x, In x cats -> child d x c /\ category d x) as Hc' by (intros x Hx; now apply Hc). clear Hc. induction F as [|p s cs ss Hp F' IHF]; cbn [concat]; [constructor|]. inversion Ncats as [|? ? N1 N2]; subst.
    destruct (Hc' p (or_introl eq_refl)) as [Hp1 Hp2]. apply NoDup_app_iff. split; [apply (IH d p s height W A); auto|]. split; [apply IHF; auto; intros x Hx; apply Hc'; now right|].
    intros a Ha Ha'. assert (exists q, In q cs /\ under d q a) as (q & Hq & Uq).
    { clear -F' Ha' W. induction F' as [|p s cs ss Hp _ IHF]; cbn [concat] in Ha'; [destruct Ha'|]. apply in_app_or in Ha'. destruct Ha' as [H|H]; [exists p; split; [now left|now apply (all_children_under n d p s W Hp)]|]. destruct (IHF H) as (q & Hq & K). exists q. split; [now right|exact K]. }
    destruct (Hc' q (or_intror Hq)) as [Hq1 Hq2]. apply (disjoint_subs d height c p q a W A Hp1 Hq1 Hp2 Hq2); [intros ->; contradiction|now apply (all_children_under n d p s W Hp)|exact Uq]. }
  assert (forall p a, child d p c -> category d p -> under d p a -> a <> c) as Nc.
  { intros p a Hp Cp U ->. apply under_below in U. pose proof (A p c Hp Cp) as L. pose proof (child_key _ _ _ Hp) as Kp. destruct (below_height d height p c W A U) as [->|[K1 K2]]; [rewrite (key_lower _ _ W Kp) in L; lia|].
    specialize (K2 (Cc K1)). rewrite (key_lower _ _ W Kp) in K2. rewrite (key_lower _ _ W K1) in L. lia. }
  apply NoDup_app_iff. split; [|split; [constructor; [intros []|constructor]|]].
  - apply NoDup_app_iff. split; [now apply NoDup_filter|]. split; [exact Nsubs|]. intros a Ha Ha'. apply filter_In in Ha. destruct Ha as [Ha1 Ha2]. apply Hk in Ha1. destruct (Hs a Ha') as (p & Hp & U). apply Hc in Hp. destruct Hp as [Hp1 Hp2].
    apply under_below in U. inversion U as [|q ? H1 H2 H3]; subst.
    + assert (smem a cats = true) as K by (apply smem_spec; apply Hc; now split). rewrite K in Ha2. discriminate.
    + pose proof (child_unique d a c q W Ha1 H3) as Eq. pose proof (child_key _ _ _ Hp1) as Kp. pose proof (A p c Hp1 Hp2) as L. rewrite Eq in L. destruct (below_height d height p q W A H1) as [->|[K1 K2]]; [rewrite (key_lower _ _ W Kp) in L; lia|].
      rewrite (key_lower _ _ W K1) in L. destruct H2 as [->|H2]; [lia|]. specialize (K2 H2). rewrite (key_lower _ _ W Kp) in K2. lia.
  - intros a Ha [<-|[]]. apply in_app_or in Ha. destruct Ha as [Ha|Ha].
    + apply filter_In in Ha. destruct Ha as [Ha _]. apply Hk in Ha. pose proof (child_key _ _ _ Ha) as K. pose proof (A c c Ha (Cc K)) as L. rewrite (key_lower _ _ W K) in L. lia.
    + destruct (Hs c Ha) as (p & Hp & U). apply Hc in Hp. now apply (Nc p c).
Qed.
