(** The order in which a dictionary is written: what is outside the tree. *)
From Coq Require Import String Ascii List NArith PeanoNat Bool Lia Permutation.
From Verif Require Import PyBase PyFacts StarBlockModel CollectionModel CollectionProofs ValidateModel ValidateProofs ValidateProofs2 TreeModel TreeSpec TreeProofs TreeProofs2 OutlineModel OutlineSpec OutlineProofs.
Import ListNotations.
Open Scope nat_scope.

Lemma remove1_iff x l y : NoDup l -> (In y (remove1 str_eqb x l) <-> In y l /\ y <> x).
Proof.
  intros N. split.
  - intros I. split; [exact (remove1_incl str_eqb str_eqb_spec x l y I)|]. intros ->. exact (remove1_NoDup_notin str_eqb str_eqb_spec x l N I).
  - intros [I D]. exact (remove1_in_neq str_eqb str_eqb_spec x l y D I).
Qed.
Lemma remove_each_ok xs : forall l, NoDup xs -> NoDup l -> incl xs l -> exists r, remove_each xs l = Ret r /\ NoDup r /\ (forall y, In y r <-> In y l /\ ~ In y xs) /\ Permutation (xs ++ r) l.
Proof.
  induction xs as [|x xs IH]; intros l Nx Nl I; cbn [remove_each]; [exists l; split; [reflexivity|]; split; [exact Nl|]; split; [cbn [In]; tauto|reflexivity]|].
  inversion Nx as [|? ? Hx Nx']; subst. assert (smem x l = true) as -> by (apply smem_spec; apply I; now left).
  destruct (IH (remove1 str_eqb x l)) as (r & E & Nr & Hr & Pr); [exact Nx'|now apply (remove1_NoDup str_eqb str_eqb_spec)| |].
  - intros y Iy. apply remove1_iff; [exact Nl|]. split; [apply I; now right|]. intros ->. contradiction.
  - exists r. split; [exact E|]. split; [exact Nr|]. split.
    + intros y. rewrite Hr, (remove1_iff x l y Nl). cbn [In]. intuition congruence.
    + cbn [app]. etransitivity; [apply perm_skip; exact Pr|]. apply (remove1_perm str_eqb str_eqb_spec). apply I. now left.
Qed.

Section Outside.
Variable b : book.
Hypothesis P : plain b.
Let d := id_table b.
Variable root : str.
Variable height : str -> nat.
Hypothesis A : acyclic d height.
Hypothesis T : tidy d root.
Variable U : list str.
Hypothesis NU : NoDup U.
Hypothesis HU : forall a, In a U <-> In a (map fst d) /\ loose d root a.
Let W : well_formed d := p_wf b P.
Definition handled (pre : list str) (x : str) : Prop := exists k, In k pre /\ category d k /\ (x = k \/ child d x k).

Lemma cat_id_ok a k : In a U -> In k U -> exists c, cat_id b a = Ret c /\ (str_eqb c (lower k) = true <-> child d a k).
Proof.
  intros Ia Ik. apply HU in Ia as [_ La]. destruct (t_named _ _ T a La) as (t & s & It & Es). unfold cat_id. rewrite (lookup_key b P a t It). cbn [obind]. change (u "_name.category_id") with a_category in Es. rewrite Es. eexists. split; [reflexivity|].
  destruct (cat_of_child d a k t W It) as (s' & Ec & Hc). unfold cat_of in Ec. rewrite Es in Ec. injection Ec as <-. rewrite <- Hc. destruct (str_eqb_spec (lower s) (lower k)); split; auto; discriminate.
Qed.
Lemma kids_ok k : In k U -> exists kids, filterM (fun a => obind (cat_id b a) (fun c => Ret (str_eqb c (lower k)))) U = Ret kids /\ NoDup kids /\ forall a, In a kids <-> In a U /\ child d a k.
Proof.
  intros Ik. destruct (filterM_spec (fun a => obind (cat_id b a) (fun c => Ret (str_eqb c (lower k)))) (fun a => child d a k) U) as (r & E & Hr & Nr).
  - intros x I. destruct (cat_id_ok x k I Ik) as (c & -> & H). cbn [obind]. eexists. split; [reflexivity|exact H].
  - exists r. split; [exact E|]. split; [specialize (Nr (fun x => x)); rewrite !map_id in Nr; auto|exact Hr].
Qed.
Lemma U_key k : In k U -> lower k = k. Proof. intros I. apply HU in I as [I _]. exact (key_lower d k W I). Qed.
Lemma outside_ok : forall todo pre R all, U = pre ++ todo -> NoDup R -> (forall x, In x R <-> In x U /\ ~ handled pre x) ->
  exists R' ext, outside_cats b U todo R all = Ret (R', all ++ ext) /\ NoDup R' /\ (forall x, In x R' <-> In x U /\ ~ handled U x) /\ Permutation (ext ++ R') R /\
    forall k x, In k todo -> category d k -> In x U -> child d x k -> before ext k x.
Proof.
  induction todo as [|k todo IH]; intros pre R all E NR HR; cbn [outside_cats].
  - exists R, []. rewrite app_nil_r in *. subst pre. repeat split; auto; try apply HR; auto. intros k x [].
  - assert (In k U) as Ik by (rewrite E; apply in_or_app; right; now left). pose proof (proj1 (HU k) Ik) as [Kk Lk]. destruct (key_table b k Kk) as (t & It). rewrite (lookup_key b P k t It). cbn [obind].
    assert (U = (pre ++ [k]) ++ todo) as E' by (rewrite <- app_assoc; exact E). destruct (scope_cat b P k t It) as [Sc _]. fold d in Sc.
    assert (~ In k pre) as Nk. { intros I. rewrite E in NU. apply NoDup_remove_2 in NU. apply NU. apply in_or_app. now left. }
    destruct (scope_is "Category" t).
    + assert (category d k) as Ck by now apply Sc. destruct (kids_ok k Ik) as (kids & Ekids & Nkids & Hkids).
      assert (forall x, child d x k -> x <> k) as Irr. { intros x C ->. pose proof (A k k C Ck) as L. rewrite (U_key k Ik) in L. lia. }
      assert (forall k', In k' U -> category d k' -> ~ child d k k') as Flat. { intros k' I' C' H. apply (t_flat _ _ T k k' Lk Ck H). now rewrite (U_key k' I'). }
      assert (incl pre U) as Ipre by (rewrite E; intros x I; apply in_or_app; now left).
      assert (In k R) as IkR. { apply HR. split; [exact Ik|]. intros (k' & I' & C' & [->|H]); [contradiction|]. exact (Flat k' (Ipre _ I') C' H). }
      destruct (remove_each_ok [k] R) as (R1 & E1 & N1 & H1 & P1); [constructor; [intros []|constructor]|exact NR|intros x [<-|[]]; exact IkR|]. rewrite E1. cbn [obind]. rewrite Ekids. cbn [obind].
      destruct (remove_each_ok kids R1 Nkids N1) as (R2 & E2 & N2 & H2 & P2).
      { intros x I. apply Hkids in I as [I C]. apply H1. split; [|intros [<-|[]]; exact (Irr k C eq_refl)]. apply HR. split; [exact I|]. intros (k' & I' & C' & [->|H]).
        - pose proof (proj1 (HU k') I) as [_ L']. apply (t_flat _ _ T k' k L' C' C). now rewrite (U_key k Ik).
        - apply Nk. assert (k' = k) as <-; [|exact I']. rewrite <- (U_key k Ik), <- (U_key k' (Ipre _ I')). exact (child_unique d x k' k W H C). }
      rewrite E2. cbn [obind]. destruct (IH (pre ++ [k]) R2 (all ++ [k] ++ kids) E' N2) as (R' & ext & Eo & NR' & HR' & PR' & Or).
      { intros x. rewrite H2, H1, HR, Hkids. cbn [In]. split.
        - intros [[[Ix Nh] Nx] Nkid]. split; [exact Ix|]. intros (k' & I' & C' & H). apply in_app_or in I' as [I'|[<-|[]]]; [apply Nh; now exists k'|]. destruct H as [->|H]; [tauto|]. apply Nkid. now split.
        - intros [Ix Nh]. split; [split; [split; [exact Ix|]|]|].
          + intros (k' & I' & C' & H). apply Nh. exists k'. split; [apply in_or_app; now left|]. now split.
          + intros [->|[]]. apply Nh. exists x. split; [apply in_or_app; right; now left|]. split; [exact Ck|now left].
          + intros [_ C]. apply Nh. exists k. split; [apply in_or_app; right; now left|]. split; [exact Ck|now right]. }
      exists R', ([k] ++ kids ++ ext). split; [rewrite Eo; f_equal; f_equal; now rewrite <- !app_assoc|]. split; [exact NR'|]. split; [exact HR'|]. split.
      * etransitivity; [|exact P1]. cbn [app]. apply perm_skip. rewrite <- app_assoc. etransitivity; [apply Permutation_app_head; exact PR'|exact P2].
      * intros k' x [<-|I'] C' Ix C; [apply before_first; apply in_or_app; left; now apply Hkids|]. apply before_r. apply before_r. exact (Or k' x I' C' Ix C).
    + destruct (IH (pre ++ [k]) R all E' NR) as (R' & ext & Eo & NR' & HR' & PR' & Or).
      { assert (~ category d k) as NC by (intros C; apply Sc in C; discriminate). intros x. rewrite HR. split; intros [Ix Nh]; (split; [exact Ix|]); intros (k' & I' & C' & H).
        - apply in_app_or in I' as [I'|[<-|[]]]; [apply Nh; now exists k'|contradiction].
        - apply Nh. exists k'. split; [apply in_or_app; now left|now split]. }
      exists R', ext. split; [exact Eo|]. split; [exact NR'|]. split; [exact HR'|]. split; [exact PR'|]. intros k' x [<-|I'] C' Ix C; [apply Sc in C'; discriminate|]. exact (Or k' x I' C' Ix C).
Qed.
(** Names with one period. *)
Lemma split_dot_ne s : split_dot s <> [].
Proof. induction s as [|c s IH]; cbn [split_dot]; [discriminate|]. destruct (c =? 46)%N; [discriminate|]. destruct (split_dot s); discriminate. Qed.
Lemma split_plain y : ~ In 46%N y -> split_dot y = [y].
Proof. induction y as [|c y IH]; intros N; [reflexivity|]. cbn [split_dot]. destruct (N.eqb_spec c 46) as [->|_]; [elim N; now left|]. rewrite IH; [reflexivity|]. intros I. apply N. now right. Qed.
Lemma split_two x y : ~ In 46%N x -> ~ In 46%N y -> split_dot (x ++ 46%N :: y) = [x; y].
Proof.
  induction x as [|c x IH]; intros Nx Ny; [cbn [app split_dot]; rewrite N.eqb_refl; now rewrite split_plain|]. cbn [app split_dot]. destruct (N.eqb_spec c 46) as [->|_]; [elim Nx; now left|]. rewrite IH; [reflexivity| |exact Ny]. intros I. apply Nx. now right.
Qed.
Lemma guess_ok a : In a U -> ~ handled U a -> exists g, guess b a = Ret g.
Proof.
  intros Ia Nh. pose proof (proj1 (HU a) Ia) as [Ka La]. destruct (t_named _ _ T a La) as (t & s & It & Es). unfold guess. rewrite (lookup_key b P a t It). cbn [obind].
  assert (~ category d a) as NC by (intros C; apply Nh; exists a; auto).
  assert (child d a s) as Cs by (exists t; split; [exact It|]; left; exists s; now split).
  destruct (t_dot _ _ T a (lower s) La NC) as (x & y & -> & Nx & Dx & Dy).
  - destruct Cs as (t' & I' & K). exists t'. split; [exact I'|]. rewrite lower_idem. exact K.
  - intros C. rewrite lower_idem in C. apply Nh. exists (lower s). split; [|split; [exact C|right; destruct Cs as (t' & I' & K); exists t'; split; [exact I'|rewrite lower_idem; exact K]]].
    apply HU. split; [exact (cat_in d _ C)|]. inversion La as [? c N1 C1 N2 N3|? c N1 C1 N2 L2]; subst; pose proof (child_unique d _ _ _ W Cs C1) as Eu; rewrite Eu in *; [contradiction|exact L2].
  - unfold cat_from_name. rewrite (split_two x y Dx Dy). destruct x as [|c x]; [now elim Nx|]. cbn [obind]. change (u "_name.category_id") with a_category in Es. rewrite Es. eexists. reflexivity.
Qed.
Lemma by_category_ok : forall cats R all, NoDup R -> (forall a, In a R -> exists g, guess b a = Ret g) -> exists R' ext, by_category b cats R all = Ret (R', all ++ ext) /\ Permutation (ext ++ R') R.
Proof.
  induction cats as [|e cats IH]; intros R all NR G; cbn [by_category]; [exists R, []; now rewrite app_nil_r|].
  destruct (filterM_spec (fun a => obind (guess b a) (fun g => Ret (str_eqb g e))) (fun a => guess b a = Ret e) R) as (items & Ei & Hi & Ni).
  { intros x I. destruct (G x I) as (g & ->). cbn [obind]. eexists. split; [reflexivity|]. destruct (str_eqb_spec g e); split; congruence. }
  rewrite Ei. cbn [obind]. destruct (remove_each_ok items R) as (R1 & E1 & N1 & H1 & P1); [specialize (Ni (fun x => x)); rewrite !map_id in Ni; auto|exact NR|intros x I; now apply Hi in I|]. rewrite E1. cbn [obind].
  destruct (IH R1 (all ++ items) N1) as (R' & ext & E & PR'); [intros a I; apply G; now apply H1 in I|]. exists R', (items ++ ext). split; [rewrite E; now rewrite <- app_assoc|]. rewrite <- app_assoc. etransitivity; [apply Permutation_app_head; exact PR'|exact P1].
Qed.
Lemma mapM_ok f l : (forall a, In a l -> exists g, f a = Ret g) -> exists gs, mapM f l = Ret gs.
Proof. induction l as [|x l IH]; intros H; [now exists []|]. cbn [mapM]. destruct (H x (or_introl eq_refl)) as (g & ->). destruct IH as (gs & ->); [intros a I; apply H; now right|]. now eexists. Qed.
End Outside.

Theorem full_ok n ord b root height : plain b -> acyclic (id_table b) height -> only_head (id_table b) root -> category (id_table b) root -> tidy (id_table b) root -> (forall l, Permutation (ord l) l) -> height root < n ->
  exists l, full_child_list n ord b = Ret (bk_top b :: l) /\ Permutation l (map fst (id_table b)) /\
    (forall a c, child (id_table b) a c -> category (id_table b) c -> a <> root -> before l c a) /\
    (forall c, category (id_table b) c -> under (id_table b) root c -> exists x items z, l = x ++ (c :: items) ++ z /\ Sorted.StronglySorted (fun x y => str_leb x y = true) items /\ forall a, In a items <-> child (id_table b) a c /\ ~ category (id_table b) a).
Proof.
  intros P A Hd Cr T Ho Hn. set (d := id_table b) in *. pose proof (p_wf b P) as W. fold d in W.
  assert (exists t, filter (fun kt => is_head (snd kt)) d = [(root, t)]) as (tr & Ef).
  { pose proof (proj2 (root_unique d root W) Hd) as E. unfold root_category in E. destruct (filter (fun kt => is_head (snd kt)) d) as [|[k t] [|? ?]]; try discriminate. injection E as ->. now exists t. }
  pose proof (cat_in d root Cr) as Kr. destruct (key_ne b P root Kr) as [Lr Nr].
  destruct (all_children_total n d root height W A) as (ch & Ech); [now rewrite Lr|]. destruct (recurse_perm b P n root ch Nr Lr Ech) as (inside & Ein & Pin).
  pose proof (all_children_once n d root ch height W A (fun _ => Cr) Ech) as Nch. pose proof (all_children_under n d root ch W Ech) as Uch.
  assert (NoDup inside) as Nin by (eapply Permutation_NoDup; [symmetry; exact Pin|exact Nch]). assert (forall a, In a inside <-> under d root a) as Uin. { intros a. rewrite <- Uch. split; apply Permutation_in; [exact Pin|now symmetry]. }
  destruct (danglers_total n d height root W A Hd Hn) as (ls & El). pose proof (danglers_ok n d height root ls W A Hd El) as Hl.
  assert (NoDup ls) as Nls. { unfold danglers in El. rewrite (proj2 (root_unique d root W) Hd) in El. cbn [obind] in El. rewrite Ech in El. cbn [obind] in El. injection El as <-. apply NoDup_filter. exact (w_keys _ W). }
  set (U := ord ls). assert (NoDup U) as NU by (eapply Permutation_NoDup; [symmetry; apply Ho|exact Nls]). assert (forall a, In a U <-> In a (map fst d) /\ loose d root a) as HU. { intros a. rewrite <- Hl. split; apply Permutation_in; [|symmetry]; apply Ho. }
  assert (forall a, In a U -> ~ In a inside) as Dj. { intros a I1 I2. apply HU in I1 as [K L]. apply Uin in I2. exact (proj1 (loose_iff d height root a W A Kr K) L I2). }
  unfold full_child_list. fold d. rewrite Ef, Ein. cbn [obind]. cbv zeta. rewrite El. cbn [obind]. fold U.
  assert (existsb (fun a => smem a (bk_top b :: inside)) U = false) as ->.
  { destruct (existsb (fun a => smem a (bk_top b :: inside)) U) eqn:Ex; [|reflexivity]. apply existsb_exists in Ex as (a & Ia & Ma). apply smem_spec in Ma. destruct Ma as [<-|Ma]; [|now apply Dj in Ia]. apply HU in Ia as [K _]. now elim (proj1 (p_top b P)). }
  destruct (outside_ok b P root height A T U NU HU U [] U (bk_top b :: inside) eq_refl NU) as (R & ext & Eo & NR & HR & PR & Or).
  { intros x. split; [intros I; split; [exact I|]; intros (k & [] & _)|tauto]. }
  rewrite Eo. cbn [obind fst snd]. destruct (mapM_ok (guess b) R) as (gs & Eg). { intros a I. apply HR in I as [I1 I2]. exact (guess_ok b P root T U HU a I1 I2). }
  rewrite Eg. cbn [obind]. destruct (by_category_ok b (ord (distinct gs)) R ((bk_top b :: inside) ++ ext) NR) as (R' & ext' & Eb & PR'). { intros a I. apply HR in I as [I1 I2]. exact (guess_ok b P root T U HU a I1 I2). }
  rewrite Eb. cbn [obind fst snd]. exists (inside ++ ext ++ ext' ++ R'). split; [f_equal; rewrite <- !app_assoc; reflexivity|]. split.
  - etransitivity; [apply Permutation_app_head; etransitivity; [apply Permutation_app_head; exact PR'|exact PR]|]. apply NoDup_Permutation.
    + apply NoDup_app_iff. split; [exact Nin|]. split; [exact NU|]. intros a I1 I2. exact (Dj a I2 I1).
    + exact (w_keys _ W).
    + intros a. rewrite in_app_iff, Uin, HU. split.
      * intros [H|[H _]]; [|exact H]. apply under_below in H. destruct (below_height d height root a W A H) as [->|[K _]]; assumption.
      * intros K. destruct (in_dec (list_eq_dec N.eq_dec) a inside) as [I|I]; [left; now apply Uin|right]. split; [exact K|]. apply (loose_iff d height root a W A Kr K). intros H. apply I. now apply Uin.
  - split; [|intros c Cc Uc; apply Uin in Uc; destruct (recurse_members b P n root inside Nr Lr Ein c Uc (or_intror Cc)) as (x & its & z & -> & S & H); exists x, its, (z ++ ext ++ ext' ++ R'); split; [now rewrite <- !app_assoc|now split]].
    intros a c C Cc Na. pose proof (child_key d a c C) as Ka. pose proof (cat_in d c Cc) as Kc. pose proof (key_lower d c W Kc) as Lc. destruct (in_dec (list_eq_dec N.eq_dec) a inside) as [I|I].
    + apply before_l. exact (recurse_order b P n root inside Nr Lr Ein a c I Na C Lc).
    + apply before_r. apply before_l. assert (In a U) as Ia. { apply HU. split; [exact Ka|]. apply (loose_iff d height root a W A Kr Ka). intros H. apply I. now apply Uin. }
      apply Or; [|exact Cc|exact Ia|exact C]. apply HU. split; [exact Kc|]. apply (loose_iff d height root c W A Kr Kc). intros H. apply I. apply Uin. apply below_under. apply (bo_child d root c a); [now apply under_below|now right|exact C].
Qed.
