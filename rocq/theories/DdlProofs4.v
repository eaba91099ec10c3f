(** Loading DDL1 dictionaries: all steps together. *)
From Coq Require Import String Ascii List NArith PeanoNat Bool Lia.
From Verif Require Import PyBase PyFacts StarBlockModel LoopModel LoopSpec LoopProofs CollectionModel ValidateModel ValidateSpec ValidateProofs
  TreeModel EditModel EditProofs EditProofs2 DdlModel DdlSpec DdlProofs DdlProofs2 DdlProofs3.
Import ListNotations.
Open Scope nat_scope.

Lemma same_keys d d' : Forall2 same_place d d' -> map fst d' = map fst d.
Proof. induction 1 as [|x y l m (E & _) _ IH]; cbn [map]; [reflexivity|]. now rewrite E, IH. Qed.
Lemma kept t t' a : normalised t t' -> In a [n_name; n_category; n_mandatory; n_unique; c_code; c_construct; c_prim; m_list; u_list] -> tget a t' = tget a t.
Proof. intros N H. apply (nm_kept t t' N). cbn [In] in H. repeat (destruct H as [<-|H]; [cbn; intuition discriminate|]). destruct H. Qed.
Lemma same_categories d d' l : Forall2 same_place d d' -> categories d l -> categories d' l.
Proof.
  intros F. revert l. induction F as [|[k [t ov]] [k' [t' ov']] d d' (E1 & E2 & N) _ IH]; intros l C; [exact C|]. cbn [fst snd] in *.
  assert (tget n_category t' = tget n_category t) as E by (apply kept; [exact N|cbn; tauto]).
  inversion C as [|? ? ? ? ? A C'|? ? ? ? ? c A C']; subst; [apply ct_none|apply ct_some]; auto; congruence.
Qed.
Lemma called_known x y i : same_place x y -> called x i -> known_as n_cat_id n_name y i.
Proof.
  destruct x as [k [t ov]], y as [k' [t' ov']]. intros (E1 & E2 & N) C. cbn [fst snd] in *. subst k' ov'.
  assert (tget n_name t' = tget n_name t) as E by (apply kept; [exact N|cbn; tauto]).
  inversion C as [? ? ? c pre post O A B|? ? ? ? O A B|? ? ? O A B]; subst.
  - apply ka_cat. now apply (nm_cat t t' N O c i post).
  - apply ka_name; [rewrite (nm_not_cat t t' N O); exact A|congruence].
  - apply ka_key; [rewrite (nm_not_cat t t' N O); exact A|congruence].
Qed.
(** Storing the types. *)
Definition with_types (f : found) (t : table) : table :=
  put c_prim (VList (f_prims f)) (put c_construct (VList (f_constructs f)) (put c_code (VList (f_codes f)) t)).
Lemma store_ok f d t ov : NoDup (map fst d) -> In (n_this, (t, ov)) d -> tget c_code t = None -> tget c_construct t = None -> tget c_prim t = None ->
  store_types f d = Ret (dset str_eqb n_this (with_types f t, ov) d).
Proof.
  intros N I A B C. unfold store_types. apply dget_in in I; [|exact N].
  transitivity (obind (set_locked c_code (VList (f_codes f)) (t, ov)) (fun e1 => obind (set_locked c_construct (VList (f_constructs f)) e1) (fun e2 =>
     obind (set_locked c_prim (VList (f_prims f)) e2) (fun e3 => Ret (dset str_eqb n_this e3 d)))));
    [exact (f_equal (fun o : option entry => match o with None => Raise KeyErr | Some e => 
       obind (set_locked c_code (VList (f_codes f)) e) (fun e1 => obind (set_locked c_construct (VList (f_constructs f)) e1) (fun e2 =>
       obind (set_locked c_prim (VList (f_prims f)) e2) (fun e3 => Ret (dset str_eqb n_this e3 d)))) end) I)|].
  unfold set_locked. cbn [fst snd]. unfold tmem at 1. rewrite A. cbn [andb obind fst snd]. unfold tmem at 1. rewrite put_get. names. rewrite B. cbn [andb obind fst snd].
  unfold tmem at 1. rewrite !put_get. names. rewrite C. reflexivity.
Qed.
Lemma with_types_has rows t f : f_codes f = base_types ++ type_codes rows -> f_constructs f = base_constructs ++ type_constructs rows -> f_prims f = base_types ++ type_prims rows ->
  has_types rows t (with_types f t).
Proof.
  intros A B C. unfold with_types. split.
  - intros a H. cbn [In] in H. rewrite !put_get. change (lower c_prim) with c_prim. change (lower c_construct) with c_construct. change (lower c_code) with c_code.
    rewrite !(eqb_diff (lower a)); try reflexivity; intros K; symmetry in K; tauto.
  - rewrite !put_get. names. now rewrite A.
  - rewrite !put_get. names. now rewrite B.
  - rewrite !put_get. names. now rewrite C.
Qed.
Lemma dset_app {V} k (v : V) a b : In k (map fst a) -> dset str_eqb k v (a ++ b) = dset str_eqb k v a ++ b.
Proof.
  induction a as [|[x w] a IH]; cbn [map fst dset app]; intros H; [destruct H|]. destruct (str_eqb_spec k x) as [->|n]; [reflexivity|].
  destruct H as [H|H]; [congruence|]. cbn [app]. now rewrite IH.
Qed.
(** A definition before and after. *)
Definition step_of (rows : list (str * str * value)) (x y : str * entry) : Prop :=
  fst x = fst y /\ snd (snd x) = snd (snd y) /\ exists t1, normalised (fst (snd x)) t1
    /\ (fst x <> n_this -> fst (snd y) = t1) /\ (fst x = n_this -> has_types rows t1 (fst (snd y))).
Lemma steps_all rows f t ov : (forall t1, has_types rows t1 (with_types f t1)) -> forall d d', Forall2 same_place d d' -> NoDup (map fst d') -> In (n_this, (t, ov)) d' ->
  Forall2 (step_of rows) d (dset str_eqb n_this (with_types f t, ov) d').
Proof.
  intros Hf. induction 1 as [|[k [u1 o1]] [k' [u2 o2]] l m (E1 & E2 & N) F IH]; intros Nd I; [destruct I|].
  cbn [fst snd] in E1, E2, N. subst k' o2. cbn [map fst] in Nd. inversion Nd as [|? ? N1 N2]; subst. cbn [dset].
  destruct (str_eqb_spec n_this k) as [<-|n].
  - destruct I as [I|I]; [|elim N1; change n_this with (fst (n_this, (t, ov))); now apply in_map]. injection I as -> ->. constructor.
    + split; [reflexivity|]. split; [reflexivity|]. exists t. cbn [fst snd]. split; [exact N|]. split; [intros K; now elim K|]. intros _. apply Hf.
    + assert (forall z w, In z l -> In w m -> True) by auto. clear IH.
      assert (~ In n_this (map fst l)) as N3 by (rewrite <- (same_keys l m F); exact N1).
      clear - F N3. induction F as [|[a [b c]] [a' [b' c']] l m (E1 & E2 & N) F IH]; constructor.
      * cbn [fst snd] in *. split; [exact E1|]. split; [exact E2|]. exists b'. cbn [fst snd]. split; [exact N|]. split; [reflexivity|]. intros K. elim N3. now left.
      * apply IH. intros K. apply N3. now right.
  - destruct I as [I|I]; [congruence|]. constructor; [|now apply IH]. split; [reflexivity|]. split; [reflexivity|]. exists u2. cbn [fst snd]. split; [exact N|]. split; [reflexivity|]. intros ->. now elim n.
Qed.
Lemma step_known rows x y i : step_of rows x y -> called x i -> known_as n_cat_id n_name y i.
Proof.
  destruct x as [k [t ov]], y as [k' [t' ov']]. intros (E1 & E2 & t1 & N & A & B) C. cbn [fst snd] in *. subst k' ov'.
  assert (known_as n_cat_id n_name (k, (t1, ov)) i) as K by (apply (called_known (k, (t, ov))); [split; [reflexivity|split; [reflexivity|exact N]]|exact C]).
  destruct (str_eqb_spec k n_this) as [->|n].
  - assert (forall a, In a [n_cat_id; n_name] -> tget a t' = tget a t1) as Q.
    { intros a Ha. apply (ht_other _ _ _ (B eq_refl)). cbn [In] in Ha. repeat (destruct Ha as [<-|Ha]; [cbn; intuition discriminate|]). destruct Ha. }
    inversion K; subst; [apply ka_cat|apply ka_name|apply ka_key]; rewrite Q; try assumption; cbn; tauto.
  - now rewrite (A n).
Qed.
Lemma made_known c : known_as n_cat_id n_name (made_name c, made_def c) c.
Proof. apply ka_cat. reflexivity. Qed.
Lemma known_all rows d d4 : Forall2 (step_of rows) d d4 -> forall ids, Forall2 called d ids -> Forall2 (known_as n_cat_id n_name) d4 ids.
Proof.
  induction 1 as [|x y l m E F IH]; intros ids C; inversion C; subst; constructor; [now apply (step_known rows x y)|]. now apply IH.
Qed.
Lemma made_all extra : Forall2 (known_as n_cat_id n_name) (map (fun c => (made_name c, made_def c)) extra) extra.
Proof. induction extra; constructor; [apply made_known|assumption]. Qed.
(** The table and the list of what is said. *)
Lemma listing_said : forall d ids, map fst (listing [n_this] d ids) = map fst (said_by d ids).
Proof.
  induction d as [|[k [t ov]] d IH]; intros [|i ids]; try reflexivity. cbn [listing said_by]. change (smem k [n_this]) with (str_eqb k n_this || false)%bool. rewrite orb_false_r.
  destruct (str_eqb k n_this); [apply IH|]. cbn [map fst]. now rewrite IH.
Qed.
Lemma listing_app tops : forall d ids e js, length d = length ids -> listing tops (d ++ e) (ids ++ js) = listing tops d ids ++ listing tops e js.
Proof. induction d as [|[k x] d IH]; intros [|i ids] e js H; try discriminate; [reflexivity|]. cbn [app listing]. rewrite IH by now injection H. destruct (smem k tops); reflexivity. Qed.
Lemma said_app : forall d ids e js, length d = length ids -> said_by (d ++ e) (ids ++ js) = said_by d ids ++ said_by e js.
Proof. induction d as [|[k [t ov]] d IH]; intros [|i ids] e js H; try discriminate; [reflexivity|]. cbn [app said_by]. rewrite IH by now injection H. destruct (str_eqb k n_this); reflexivity. Qed.
Lemma said_nodup : forall d ids, NoDup (map lower ids) -> NoDup (map fst (said_by d ids)).
Proof.
  assert (forall d ids x, In x (map fst (said_by d ids)) -> In x (map lower ids)) as I.
  { induction d as [|[k [t ov]] d IH]; intros [|i ids] x H; try destruct H; cbn [said_by] in H. destruct (str_eqb k n_this); [right; now apply (IH ids)|].
    destruct H as [H|H]; [now left|right; now apply (IH ids)]. }
  induction d as [|[k [t ov]] d IH]; intros [|i ids] N; cbn [said_by map]; try constructor. cbn [map] in N. inversion N as [|? ? N1 N2]; subst.
  destruct (str_eqb k n_this); [now apply IH|]. cbn [map fst]. constructor; [|now apply IH]. intros K. apply N1. now apply (I d).
Qed.
Lemma said_defines : forall d ids i t, In (i, t) (said_by d ids) -> exists ov b, In (i, b) (listing [n_this] d ids) /\ In (b, (t, ov)) d.
Proof.
  induction d as [|[k [t0 ov]] d IH]; intros [|j ids] i t H; try destruct H; cbn [said_by listing] in *. change (smem k [n_this]) with (str_eqb k n_this || false)%bool. rewrite orb_false_r.
  destruct (str_eqb k n_this).
  - destruct (IH ids i t H) as (ov' & b & A & B). exists ov', b. split; [exact A|now right].
  - destruct H as [H|H].
    + injection H as <- <-. exists ov, k. split; now left.
    + destruct (IH ids i t H) as (ov' & b & A & B). exists ov', b. split; now right.
Qed.
Lemma said_at : forall d ids k t ov i, In (k, (t, ov), i) (combine d ids) -> k <> n_this -> In (lower i, t) (said_by d ids) /\ In (lower i, k) (listing [n_this] d ids) /\ In (k, (t, ov)) d.
Proof.
  induction d as [|[k0 [t0 ov0]] d IH]; intros [|j ids] k t ov i H n; try destruct H; cbn [said_by listing combine] in *. 
  - injection H as -> -> -> ->. change (smem k [n_this]) with (str_eqb k n_this || false)%bool. rewrite orb_false_r. rewrite eqb_diff by exact n. repeat split; now left.
  - destruct (IH ids k t ov i H n) as (A & B & C). change (smem k0 [n_this]) with (str_eqb k0 n_this || false)%bool. rewrite orb_false_r. destruct (str_eqb k0 n_this); repeat split; try assumption; now right.
Qed.
(** What is said does not change. *)
Definition says_same (x y : str * table) : Prop := fst x = fst y /\ forall a, In a [n_category; n_mandatory; n_unique] -> tget a (snd y) = tget a (snd x).
Lemma needed_same c : forall L L' l, Forall2 says_same L L' -> needed c L l -> needed c L' l.
Proof.
  intros L L' l F. revert l. induction F as [|[i t] [i' t'] L L' (E & Q) F IH]; intros l H; [exact H|]. cbn [fst snd] in *. subst i'.
  assert (tget n_mandatory t' = tget n_mandatory t) as Q1 by (apply Q; cbn; tauto). assert (tget n_category t' = tget n_category t) as Q2 by (apply Q; cbn; tauto).
  inversion H; subst; [apply nd_in|apply nd_out]; rewrite ?Q1, ?Q2; auto.
Qed.
Lemma unique_same c : forall L L' l, Forall2 says_same L L' -> unique_of c L l -> unique_of c L' l.
Proof.
  intros L L' l F. revert l. induction F as [|[i t] [i' t'] L L' (E & Q) F IH]; intros l H; [exact H|]. cbn [fst snd] in *. subst i'.
  assert (tget n_unique t' = tget n_unique t) as Q1 by (apply Q; cbn; tauto). assert (tget n_category t' = tget n_category t) as Q2 by (apply Q; cbn; tauto).
  inversion H; subst; [apply uq_in|apply uq_out]; rewrite ?Q1, ?Q2; auto.
Qed.
Definition silent (x : str * table) : Prop := tget n_mandatory (snd x) = None /\ tget n_unique (snd x) = None.
Lemma needed_app c : forall L l e, needed c L l -> Forall silent e -> needed c (L ++ e) l.
Proof.
  intros L l e H S. induction H as [| |]; [|apply nd_in; assumption|apply nd_out; assumption]. cbn [app].
  induction e as [|[i t] e IH]; [constructor|]. apply nd_out; [left; destruct (Forall_inv S) as [A _]; cbn [snd] in A; rewrite A; discriminate|]. apply IH. exact (Forall_inv_tail S).
Qed.
Lemma unique_app c : forall L l e, unique_of c L l -> Forall silent e -> unique_of c (L ++ e) l.
Proof.
  intros L l e H S. induction H as [| |]; [|apply uq_in; assumption|apply uq_out; assumption]. cbn [app].
  induction e as [|[i t] e IH]; [constructor|]. apply uq_out; [left; destruct (Forall_inv S) as [_ A]; exact A|]. apply IH. exact (Forall_inv_tail S).
Qed.
Lemma said_same rows : forall d d4 ids, Forall2 (step_of rows) d d4 -> Forall2 says_same (said_by d ids) (said_by d4 ids).
Proof.
  intros d d4 ids F. revert ids. induction F as [|[k [t ov]] [k' [t' ov']] d d4 (E1 & E2 & t1 & N & A & B) F IH]; intros [|i ids]; cbn [said_by]; try constructor.
  cbn [fst snd] in *. subst k'. destruct (str_eqb_spec k n_this) as [e|n]; [apply IH|]. constructor; [|apply IH]. split; [reflexivity|]. cbn [fst snd]. rewrite (A n).
  intros a Ha. apply kept; [exact N|]. cbn [In] in *. tauto.
Qed.
Lemma made_silent : forall extra, Forall silent (said_by (map (fun c => (made_name c, made_def c)) extra) extra).
Proof.
  induction extra as [|c extra IH]; [constructor|]. cbn [map said_by]. unfold made_def at 1. destruct (str_eqb (made_name c) n_this); [exact IH|]. constructor; [|exact IH]. split; reflexivity.
Qed.
Lemma made_not_this c : made_name c <> n_this.
Proof. unfold made_name. intros K. apply (f_equal (hd 0%N)) in K. discriminate K. Qed.

Lemma lower_lo d d1 : (exists keep new, renamed d keep new /\ d1 = keep ++ new /\ NoDup (map fst d ++ map fst new)) -> (forall k, In k (map fst d) -> lower k = k) ->
  split_all d d = Ret d1 /\ forall k, In k (map fst d1) -> lower k = k.
Proof.
  intros (keep & new & R & -> & N) L. split; [now apply split_ok|].
  clear N. induction R as [|k e d keep new E R IH|k e d keep new l S R IH]; intros x H.
  - destruct H.
  - destruct H as [<-|H]; [apply L; now left|]. apply IH; [|exact H]. intros y Hy. apply L. now right.
  - rewrite app_assoc, map_app in H. apply in_app_or in H as [H|H]; [|].
    + rewrite map_app in H. apply in_app_or in H as [H|H].
      * apply IH; [intros y Hy; apply L; now right|]. rewrite map_app. apply in_or_app. now left.
      * inversion S as [? ? s E P|? ? l' names E El P]; subst.
        -- destruct H as [<-|[]]. apply lower_idem.
        -- rewrite map_map in H. apply in_map_iff in H as (n & <- & _). apply lower_idem.
    + apply IH; [intros y Hy; apply L; now right|]. rewrite map_app. apply in_or_app. now right.
Qed.
Lemma Forall2_get {A B} (P : A -> B -> Prop) : forall l m, Forall2 P l m -> forall x, In x l -> exists y, In y m /\ P x y.
Proof. induction 1 as [|x y l m E F IH]; intros z H; [destruct H|]. destruct H as [<-|H]; [exists y; split; [now left|exact E]|]. destruct (IH z H) as (w & A1 & A2). exists w. split; [now right|exact A2]. Qed.
Lemma Forall2_get2 {A B} (P : A -> B -> Prop) : forall l m, Forall2 P l m -> forall y, In y m -> exists x, In x l /\ P x y.
Proof. induction 1 as [|x y l m E F IH]; intros z H; [destruct H|]. destruct H as [<-|H]; [exists x; split; [now left|exact E]|]. destruct (IH z H) as (w & A1 & A2). exists w. split; [now right|exact A2]. Qed.
Lemma step_combine rows : forall d d4 ids, Forall2 (step_of rows) d d4 -> forall x (i : str), In (x, i) (combine d ids) -> exists y, In (y, i) (combine d4 ids) /\ step_of rows x y.
Proof.
  intros d d4 ids F. revert ids. induction F as [|x y l m E F IH]; intros [|j ids] z i H; try destruct H.
  - injection H as <- <-. exists y. split; [now left|exact E].
  - destruct (IH ids z i H) as (w & A & B). exists w. split; [now right|exact B].
Qed.
Lemma overviews_called : forall d o, overviews d o -> forall ids, Forall2 called d ids -> forall c, In c o -> exists k t ov, overview t /\ In (k, (t, ov), c) (combine d ids).
Proof.
  induction 1 as [|k t ov d l O V IH|k t ov d l c pre post O E1 E2 V IH]; intros ids C x Hx; [destruct Hx|..]; inversion C as [|? i ? ids' C1 C2]; subst.
  - destruct (IH ids' C2 x Hx) as (k' & t' & ov' & A & B). exists k', t', ov'. split; [exact A|now right].
  - destruct Hx as [<-|Hx]; [|destruct (IH ids' C2 x Hx) as (k' & t' & ov' & A & B); exists k', t', ov'; split; [exact A|now right]].
    exists k, t, ov. split; [exact O|]. left. f_equal. inversion C1 as [? ? ? c' pre' post' O' E1' E2'| |]; subst; try contradiction.
    rewrite E1 in E1'. injection E1' as -> E1'.
    assert (forall (a b p q : str), a ++ 95%N :: b = p ++ 95%N :: q -> ~ In 95%N b -> ~ In 95%N q -> a = p) as U.
    { clear. induction a as [|x a IH]; intros b [|y p] q H Hb Hq; cbn [app] in H; [reflexivity|..].
      - injection H as <- ->. elim Hb. apply in_or_app. right. now left.
      - injection H as -> <-. elim Hq. apply in_or_app. right. now left.
      - injection H as -> H. f_equal. now apply (IH b p q). }
    symmetry. now apply (U _ _ _ _ E1').
Qed.
Lemma combine_app2 {A B} : forall (a : list A) (b : list B) c d, length a = length b -> combine (a ++ c) (b ++ d) = combine a b ++ combine c d.
Proof. induction a as [|x a IH]; intros [|y b] c d H; try discriminate; [reflexivity|]. cbn [app combine]. now rewrite IH by now injection H. Qed.
Lemma key_once {V} k (a b : V) (l : list (str * V)) : NoDup (map fst l) -> In (k, a) l -> In (k, b) l -> a = b.
Proof. intros N A B. apply dget_in in A; [|exact N]. apply dget_in in B; [|exact N]. congruence. Qed.
Lemma made_at c : forall extra, In c extra -> In (lower c, made_name c) (listing [n_this] (map (fun c => (made_name c, made_def c)) extra) extra).
Proof.
  induction extra as [|x extra IH]; intros H; [destruct H|]. cbn [map listing]. change (smem (made_name x) [n_this]) with (str_eqb (made_name x) n_this || false)%bool.
  rewrite eqb_diff by apply made_not_this. cbn [orb]. destruct H as [->|H]; [now left|right; now apply IH].
Qed.
Theorem load_ok d d1 rows ids cats extra : loadable d d1 rows ids cats extra -> exists D, load_ddl1 d = Ret D /\ well_listed D
  /\ k_keys D = map fst (said_by d1 ids) ++ map lower extra
  /\ (forall k t ov i, In (k, (t, ov), i) (combine d1 ids) -> k <> n_this ->
        exists t1 t', normalised t t1 /\ informed (said_by d1 ids) (lower i) t1 t' /\ defines D (lower i) (t', ov))
  /\ (forall c, In c extra -> exists t', informed (said_by d1 ids) (lower c) (fst (made_def c)) t' /\ defines D (lower c) (t', true))
  /\ (forall t ov, In (n_this, (t, ov)) d1 -> exists t1 t', normalised t t1 /\ has_types rows t1 t' /\ In (n_this, (t', ov)) (k_blocks D)).
Proof.
  intros [H1 H2 H3 H4 (o & H5 & H6) (used & H7 & H8) H9 H10 (tt & ot & H11 & Hov & Hc1 & Hc2 & Hc3) H12 H13 H14 H15 H16].
  destruct (lower_lo d d1 H1 H2) as [E1 L1].
  destruct (normal_all_ok d1 base_found [] rows o cats H3 H4 H5 eq_refl H6) as (d2 & E2 & P2). cbn [app] in E2.
  set (f := Found _ _ _ _) in E2.
  pose proof (same_keys d1 d2 P2) as K2.
  set (made := map (fun c => (made_name c, made_def c)) extra).
  assert (NoDup (map fst d1)) as Nd1 by (apply NoDup_app_iff in H10; tauto).
  assert (rogue_all (map fst d2) d2 (f_cats f) = Ret (d2 ++ made, map VStr (cats ++ extra))) as E3.
  { apply (rogue_ok d2 cats used extra); try assumption; rewrite ?K2; try assumption. now apply (same_categories d1). }
  assert (map fst made = map made_name extra) as Km by (unfold made; rewrite map_map; reflexivity).
  destruct (Forall2_get _ _ _ P2 _ H11) as ([kt [t2 ov2]] & It & (Q1 & Q2 & Q3)). cbn [fst snd] in Q1, Q2, Q3. subst kt ov2.
  assert (store_types f (d2 ++ made) = Ret (dset str_eqb n_this (with_types f t2, ot) (d2 ++ made))) as E4.
  { apply store_ok.
    - exact (eq_ind_r (fun z => NoDup z) H10 (eq_trans (map_app fst d2 made) (f_equal2 (@app str) K2 Km))).
    - apply in_or_app. now left.
    - rewrite (kept _ _ _ Q3); [exact Hc1|cbn; tauto].
    - rewrite (kept _ _ _ Q3); [exact Hc2|cbn; tauto].
    - rewrite (kept _ _ _ Q3); [exact Hc3|cbn; tauto]. }
  assert (In n_this (map fst d2)) as It2 by (change n_this with (fst (n_this, (t2, ot))); now apply in_map).
  pose (d4 := dset str_eqb n_this (with_types f t2, ot) d2 : defs).
  assert (store_types f (d2 ++ made) = Ret (d4 ++ made)) as E4' by exact (eq_trans E4 (f_equal (@Ret defs) (dset_app n_this (with_types f t2, ot) d2 made It2))).
  assert (forall t1, has_types rows t1 (with_types f t1)) as Hf by (intros t1; apply with_types_has; reflexivity).
  assert (Forall2 (step_of rows) d1 d4) as F4 by (apply steps_all; [exact Hf|exact P2|rewrite K2; exact Nd1|exact It]).
  assert (map fst d4 = map fst d1) as K4 by (clear - F4; induction F4 as [|x y l m (E & _) _ IH]; cbn [map]; [reflexivity|now rewrite E, IH]).
  assert (length d1 = length ids) as Len by (clear - H12; induction H12; cbn [length]; congruence).
  assert (length d4 = length ids) as Len4 by (rewrite <- Len, <- (map_length fst d4), K4, map_length; reflexivity).
  assert (ddl1_normalise d = Ret (d4 ++ made)) as En.
  { unfold ddl1_normalise. etransitivity; [apply (f_equal (fun x => obind x _)); exact E1|]. cbn [obind].
    etransitivity; [apply (f_equal (fun x => obind x _)); exact E2|]. cbn [obind fst snd].
    etransitivity; [apply (f_equal (fun x => obind x _)); exact E3|]. cbn [obind fst snd]. exact E4'. }
  set (tab := listing [n_this] (d4 ++ made) (ids ++ extra)).
  set (L := said_by (d4 ++ made) (ids ++ extra)).
  assert (map fst tab = map fst L) as KL by apply listing_said.
  assert (NoDup (map fst L)) as NL by (now apply said_nodup).
  assert (map fst (d4 ++ made) = map fst d1 ++ map made_name extra) as Ka by exact (eq_trans (map_app fst d4 made) (f_equal2 (@app str) K4 Km)).
  assert (forall k, In k (map fst (d4 ++ made)) -> lower k = k) as Low.
  { intros k Hk. rewrite Ka in Hk. apply in_app_or in Hk as [Hk|Hk]; [now apply L1|]. apply in_map_iff in Hk as (c & <- & _). apply lower_idem. }
  assert (NoDup (map fst (d4 ++ made))) as Nd by (rewrite Ka; exact H10).
  assert (def_block_table n_cat_id n_name [n_this] (d4 ++ made) = Ret tab) as Et.
  { apply table_made.
    - apply Forall2_app; [now apply (known_all rows d1)|apply made_all].
    - now apply NoDup_map_inv in H13.
    - exact Low.
    - rewrite listing_said. exact NL. }
  set (D0 := DDic (d4 ++ made) [] tab []).
  assert (well_listed D0) as W0 by (apply listing_good; [exact Nd|exact Low|rewrite listing_said; exact NL]).
  assert (L = said_by d4 ids ++ said_by made extra) as EL by (apply said_app; exact Len4).
  assert (map fst (said_by d4 ids) = map fst (said_by d1 ids)) as Ks.
  { pose proof (said_same rows d1 d4 ids F4) as S. clear - S. induction S as [|x y l m (E & _) _ IH]; cbn [map]; [reflexivity|now rewrite E, IH]. }
  assert (map fst (said_by made extra) = map lower extra) as Ke.
  { unfold made. clear. induction extra as [|c extra IH]; [reflexivity|]. cbn [map said_by]. unfold made_def at 1. rewrite eqb_diff by apply made_not_this. cbn [map fst]. now rewrite IH. }
  (* every telling definition of the table comes from one of d1 *)
  assert (forall i t, In (i, t) L -> (exists k t0 ov, In (k, (t0, ov)) d1 /\ forall a, In a [n_category; n_mandatory; n_unique] -> tget a t = tget a t0) \/ silent (i, t)) as From.
  { intros i t Hi. rewrite EL in Hi. apply in_app_or in Hi as [Hi|Hi].
    - left. destruct (said_defines d4 ids i t Hi) as (ov & b & _ & Hb). destruct (Forall2_get2 _ _ _ F4 _ Hb) as ([k [t0 ov0]] & Hk & (_ & _ & t1 & N & A1 & A2)). cbn [fst snd] in *.
      exists k, t0, ov0. split; [exact Hk|]. intros a Ha. transitivity (tget a t1).
      + destruct (str_eqb_spec k n_this) as [->|n]; [|now rewrite (A1 n)]. apply (ht_other _ _ _ (A2 eq_refl)). cbn [In] in Ha. repeat (destruct Ha as [<-|Ha]; [cbn; intuition discriminate|]). destruct Ha.
      + apply kept; [exact N|]. cbn [In] in *. tauto.
    - right. pose proof (made_silent extra) as S. fold made in S. rewrite Forall_forall in S. now apply S. }
  destruct (cat_load_ok D0 L W0) as (D & ED & W & EI & EB & V & O).
  - unfold k_keys. cbn [D0 k_ids]. symmetry. exact KL.
  - apply Forall_forall. intros [i t] Hi. cbn [fst snd]. split.
    + destruct (said_defines _ _ _ _ Hi) as (ov & b & A & B). exists ov, b. split; assumption.
    + destruct (From i t Hi) as [(k & t0 & ov & Hk & Q)|[S1 S2]].
      * rewrite Forall_forall in H14. destruct (H14 _ Hk) as [T1 T2]. cbn [fst snd] in T1, T2. split; rewrite ?(Q n_mandatory), ?(Q n_unique), ?(Q n_category) by (cbn; tauto); assumption.
      * cbn [snd] in S1, S2. split; [rewrite S1, S2; intros [K|K]; [discriminate|now elim K]|now left].
  - intros i t c Hi Hcat Htell.
    destruct (From i t Hi) as [(k & t0 & ov & Hk & Q)|[S1 S2]]; [|cbn [snd] in *; rewrite S1, S2 in Htell; destruct Htell as [K|K]; [discriminate|now elim K]].
    rewrite !Q in Htell by (cbn; tauto). rewrite Q in Hcat by (cbn; tauto). pose proof (H15 _ _ _ _ Hk Hcat Htell) as Lc. split; [exact Lc|].
    assert (In c used) as Iu.
    { clear - H7 Hk Hcat. induction H7 as [|k0 t1 ov0 d l E C IH|k0 t1 ov0 d l c0 E C IH]; [destruct Hk|..]; destruct Hk as [Hk|Hk].
      - injection Hk as -> -> ->. congruence.
      - auto.
      - injection Hk as -> -> ->. left. congruence.
      - right. auto. }
    (* the definition that the category has in the table *)
    assert (exists k' t' ov', In (k', (t', ov')) (d4 ++ made) /\ In (lower c, k') tab /\ ((tget m_list t' = None /\ tget u_list t' = None) \/ ov' = true)) as (k' & t' & ov' & I1 & I2 & I3).
    { destruct (missing_all _ _ _ H8) as (M1 & _). destruct (M1 c Iu) as [M2|M2].
      - destruct (missing_all _ _ _ H6) as (_ & M3 & _). destruct (M3 c M2) as [M4 _]. destruct (overviews_called d1 o H5 ids H12 c M4) as (k' & t' & ov' & A1 & A2).
        assert (k' <> n_this) as n.
        { intros ->. assert (In (n_this, (t', ov')) d1) as A3 by (now apply in_combine_l in A2). apply dget_in in A3; [|exact Nd1]. apply dget_in in H11; [|exact Nd1]. rewrite A3 in H11. injection H11 as -> ->. contradiction. }
        destruct (step_combine rows d1 d4 ids F4 _ _ A2) as ([k2 [t2' ov2]] & A3 & (S1 & S2 & t1 & N & S3 & _)). cbn [fst snd] in S1, S2, N, S3. subst k2 ov2.
        destruct (said_at d4 ids k' t2' ov' c A3 n) as (_ & B2 & B3). exists k', t2', ov'. split; [apply in_or_app; now left|]. split.
        + unfold tab. rewrite listing_app by exact Len4. apply in_or_app. now left.
        + rewrite (S3 n). rewrite (kept _ _ m_list N), (kept _ _ u_list N) by (cbn; tauto). apply (H16 k'). now apply in_combine_l in A2.
      - exists (made_name c), (fst (made_def c)), true. split; [apply in_or_app; right; unfold made; apply in_map_iff; now exists c|]. split; [|now right].
        unfold tab. rewrite listing_app by exact Len4. apply in_or_app. right. now apply made_at. }
    split; [|].
    + unfold k_keys. cbn [D0 k_ids]. rewrite Lc in I2. change c with (fst (c, k')). now apply in_map.
    + intros t3 ov3 (b & B1 & B2). cbn [D0 k_ids k_blocks] in B1, B2. rewrite Lc in I2.
      assert (b = k') as ->. { assert (NoDup (map fst tab)) as Nt by (rewrite KL; exact NL). apply dget_in in B1; [|exact Nt]. apply dget_in in I2; [|exact Nt]. congruence. }
      assert ((t3, ov3) = (t', ov')) as Ee by exact (key_once k' (t3, ov3) (t', ov') (d4 ++ made) Nd B2 I1).
      injection Ee as -> ->. exact I3.
  - exists D. split; [|split; [exact W|split; [|split; [|split]]]].
    + unfold load_ddl1. etransitivity; [apply (f_equal (fun x => obind x _)); exact En|]. cbn [obind].
      etransitivity; [apply (f_equal (fun x => obind x _)); exact Et|]. cbn [obind]. exact ED.
    + unfold k_keys. rewrite EI. cbn [D0 k_ids]. now rewrite KL, EL, map_app, Ke, Ks.
    + intros k t ov i Hi n. destruct (step_combine rows d1 d4 ids F4 _ _ Hi) as ([k2 [t2' ov2']] & A3 & (S1 & S2 & t1 & N & S3 & _)). cbn [fst snd] in S1, S2, N, S3. subst k2 ov2'.
      rewrite (S3 n) in A3. destruct (said_at d4 ids k t1 ov i A3 n) as (_ & B2 & B3).
      destruct (V (lower i) t1 ov) as (t' & D1 & V1 & V2 & V3).
      { exists k. cbn [D0 k_ids k_blocks]. split; [unfold tab; rewrite listing_app by exact Len4|]; apply in_or_app; now left. }
      exists t1, t'. split; [exact N|]. split; [|exact D1]. split; [exact V1| |].
      * intros l Hl. apply V2. rewrite EL. apply needed_app; [|apply made_silent]. now apply (needed_same _ (said_by d1 ids)); [apply (said_same rows)|].
      * intros l new Hl Hm. apply (V3 l); [|exact Hm]. rewrite EL. apply unique_app; [|apply made_silent]. now apply (unique_same _ (said_by d1 ids)); [apply (said_same rows)|].
    + intros c Hc. destruct (V (lower c) (fst (made_def c)) true) as (t' & D1 & V1 & V2 & V3).
      { exists (made_name c). cbn [D0 k_ids k_blocks]. split; [unfold tab; rewrite listing_app by exact Len4; apply in_or_app; right; now apply made_at|].
        apply in_or_app; right; unfold made; apply in_map_iff; now exists c. }
      exists t'. split; [|exact D1]. split; [exact V1| |].
      * intros l Hl. apply V2. rewrite EL. apply needed_app; [|apply made_silent]. now apply (needed_same _ (said_by d1 ids)); [apply (said_same rows)|].
      * intros l new Hl Hm. apply (V3 l); [|exact Hm]. rewrite EL. apply unique_app; [|apply made_silent]. now apply (unique_same _ (said_by d1 ids)); [apply (said_same rows)|].
    + intros t ov Ht. assert ((t, ov) = (tt, ot)) as Ee by exact (key_once n_this (t, ov) (tt, ot) d1 Nd1 Ht H11).
      injection Ee as -> ->. exists t2, (with_types f t2). split; [exact Q3|]. split; [apply Hf|]. apply O.
      * cbn [D0 k_ids]. intros K. apply in_map_iff in K as ((i & b) & E & K). cbn [snd] in E. subst b. apply listing_in in K as (_ & _ & _ & _ & K). apply K. now left.
      * cbn [D0 k_blocks]. apply in_or_app. left. apply dget_in; [rewrite K4; exact Nd1|]. apply dget_dset_eq, str_eqb_spec.
Qed.
