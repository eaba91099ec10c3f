From Coq Require Import String Ascii List NArith Bool Lia.
From Verif Require Import PyBase PyFacts StarBlockModel ValidateModel ValidateSpec ValidateProofs ValidateProofs2 TreeModel TreeSpec TreeProofs BlockCheckModel BlockCheckSpec.
Import ListNotations.
Open Scope nat_scope.

(** ** Loop references *)
Lemma spelled_flat v l : spelled v l -> flat_one v = Ret (map lower l).
Proof. intros [s|m|m]; unfold flat_one; cbn [iterate obind map]; try rewrite texts_map; reflexivity. Qed.
Lemma spelled_unique v l l' : spelled v l -> spelled v l' -> l = l'.
Proof.
  assert (forall a b : list str, map VStr a = map VStr b -> a = b) as I.
  { induction a as [|x a IH]; intros [|y b] E; try discriminate E; [reflexivity|]. injection E as -> E. now rewrite (IH _ E). }
  intros H H'. inversion H; subst; inversion H'; subst; auto; symmetry; now apply I.
Qed.
(** The looped names are defined, and their references are names. *)
Definition references_ok (d : cifdic) (names : list str) : Prop :=
  forall a, In a names -> exists def, dic_get d a = Ret def /\ (tget (d_list_ref d) def = None \/ exists v l, tget (d_list_ref d) def = Some v /\ spelled v l /\ ~ In [] l).
Lemma reference_values_ok d names : references_ok d names -> exists vs must, reference_values d names = Ret vs /\ flat_names vs = Ret must
  /\ (forall r, In r must <-> requires d names r) /\ ~ In [] must.
Proof.
  induction names as [|a r IH]; intros H.
  - exists [], []. split; [reflexivity|]. split; [reflexivity|]. split; [|now intros []]. intros x. split; [intros []|]. intros (b & ? & ? & ? & ? & [] & _).
  - destruct IH as (vs & must & E1 & E2 & R & N); [intros b Hb; apply H; now right|].
    destruct (H a (or_introl eq_refl)) as (def & D & C). cbn [reference_values]. rewrite D. cbn [obind]. rewrite E1. cbn [obind].
    destruct C as [C|(v & l & C & S & NE)]; rewrite C.
    + exists vs, must. split; [reflexivity|]. split; [exact E2|]. split; [|exact N]. intros x. rewrite R. split.
      * intros (b & K). destruct K as (def' & v & l & s & Hb & K). exists b, def', v, l, s. split; [now right|exact K].
      * intros (b & def' & v & l & s & [<-|Hb] & D' & T & K); [rewrite D in D'; injection D' as <-; congruence|]. exists b, def', v, l, s. tauto.
    + exists (v :: vs), (map lower l ++ must). split; [reflexivity|]. split; [cbn [flat_names]; now rewrite (spelled_flat _ _ S), E2|]. split.
      * intros x. rewrite in_app_iff, R, in_map_iff. split.
        -- intros [(s & <- & Hs)|(b & def' & v' & l' & s & Hb & K)].
           ++ exists a, def, v, l, s. split; [now left|]. tauto.
           ++ exists b, def', v', l', s. split; [now right|exact K].
        -- intros (b & def' & v' & l' & s & [<-|Hb] & D' & T & S' & Hs & E).
           ++ rewrite D in D'. injection D' as <-. rewrite C in T. injection T as <-. left. exists s. rewrite (spelled_unique _ _ _ S S'). now split.
           ++ right. exists b, def', v', l', s. tauto.
      * rewrite in_app_iff, in_map_iff. intros [(s & E & Hs)|K]; [|contradiction]. destruct s; [contradiction|discriminate E].
Qed.
Lemma ends_under_ok a : a <> [] -> exists b, ends_under a = Ret b /\ (b = true <-> group a).
Proof.
  intros N. unfold ends_under. destruct (rev a) as [|c t] eqn:E; [now destruct N; rewrite <- (rev_involutive a), E|].
  assert (a = rev t ++ [c]) as -> by now rewrite <- (rev_involutive a), E. exists (c =? 95)%N. split; [reflexivity|]. rewrite N.eqb_eq. split.
  - intros ->. now exists (rev t).
  - intros (p & K). apply app_inj_tail in K. now destruct K.
Qed.
Lemma filterM_under l : ~ In [] l -> exists p : str -> bool, filterM ends_under l = Ret (filter p l)
  /\ filterM (fun a => obind (ends_under a) (fun b => Ret (negb b))) l = Ret (filter (fun a => negb (p a)) l) /\ (forall a, In a l -> p a = true <-> group a).
Proof.
  intros N. exists (fun a => match ends_under a with Ret b => b | Raise _ => false end).
  assert (forall a, In a l -> exists b, ends_under a = Ret b /\ (b = true <-> group a)) as H by (intros a Ha; apply ends_under_ok; intros ->; contradiction).
  split; [|split].
  - apply filterM_ret. intros a Ha. destruct (H a Ha) as (b & -> & _). reflexivity.
  - apply filterM_ret. intros a Ha. destruct (H a Ha) as (b & -> & _). reflexivity.
  - intros a Ha. destruct (H a Ha) as (b & -> & G). exact G.
Qed.
Lemma with_alternates_ok d l : (forall a, In a l -> exists x, get_alternates d a false = Ret x) ->
  exists alts, with_alternates d l = Ret alts /\ map fst alts = l /\ forall a x, In (a, x) alts -> get_alternates d a false = Ret x.
Proof.
  induction l as [|a l IH]; intros H; [exists []; repeat split; now intros ? ? []|].
  destruct (H a (or_introl eq_refl)) as (x & E), IH as (alts & E1 & E2 & E3); [intros b Hb; apply H; now right|].
  exists ((a, x) :: alts). cbn [with_alternates]. rewrite E. cbn [obind]. rewrite E1. split; [reflexivity|]. split; [cbn; now rewrite E2|].
  intros b y [K|K]; [injection K as <- <-; exact E|now apply E3].
Qed.
Lemma references_exact d names : references_ok d names -> (forall r, requires d names r -> exists x, get_alternates d r false = Ret x) ->
  exists res, validate_loop_references d names = Ret res
  /\ (res = RTrue <-> forall r, requires d names r -> ~ group r -> supplied d names r)
  /\ (res = RTrue \/ exists bad, res = RFalse [] bad /\ bad <> [] /\ forall b, In b bad -> requires d names b /\ ~ group b /\ ~ supplied d names b).
Proof.
  intros H A. destruct (reference_values_ok d names H) as (vs & must & E1 & E2 & R & N). destruct (filterM_under must N) as (p & F1 & F2 & G).
  unfold validate_loop_references. rewrite E1. cbn [obind]. rewrite E2. cbn [obind]. rewrite F1. cbn [obind]. rewrite F2. cbn [obind].
  set (res := filter (fun a => negb (smem a names)) (filter (fun a => negb (p a)) must)). set (gs := filter (group_there names) (filter p must)).
  assert (forall a, In a res <-> requires d names a /\ ~ group a /\ ~ In a names) as Rs.
  { intros a. unfold res. rewrite !filter_In, <- R. split.
    - intros ((M & K) & S). apply negb_true_iff in K, S. split; [exact M|]. split; [rewrite <- (G _ M), K; discriminate|rewrite <- smem_spec, S; discriminate].
    - intros (M & K & S). split; [split; [exact M|]|]; apply negb_true_iff.
      + destruct (p a) eqn:P; [destruct K; now apply G|reflexivity].
      + destruct (smem a names) eqn:P; [destruct S; now apply smem_spec|reflexivity]. }
  destruct (with_alternates_ok d res) as (alts & W1 & W2 & W3); [intros a Ha; apply A, Rs, Ha|].
  rewrite W1. cbn [obind].
  set (missing := map fst (filter (fun a : str * list str => match snd a with [] => true | _ => false end) alts)).
  assert (forall r, requires d names r -> ~ group r -> supplied d names r <-> (In r names \/ exists x y, In (r, x) alts /\ In y x /\ In y names)) as Sup.
  { intros r Q NG. unfold supplied. split; intros [K|K]; try now left.
    - destruct K as (x & y & E & Y & Z). destruct (in_dec (list_eq_dec N.eq_dec) r names) as [I|I]; [now left|]. right.
      assert (In r res) as Ir by now apply Rs. rewrite <- W2 in Ir. apply in_map_iff in Ir. destruct Ir as ((r', x') & <- & Ir). cbn [fst] in *.
      rewrite (W3 _ _ Ir) in E. injection E as <-. now exists x', y.
    - right. destruct K as (x & y & I & K). exists x, y. rewrite (W3 _ _ I). tauto. }
  assert (forall a x, In (a, x) alts -> requires d names a /\ ~ group a /\ ~ In a names /\ get_alternates d a false = Ret x) as Al.
  { intros a x I. assert (In a res) as Ia by (rewrite <- W2; now apply (in_map fst) in I). apply Rs in Ia. split; [tauto|]. split; [tauto|]. split; [tauto|]. exact (W3 _ _ I). }
  assert (forall a x, In (a, x) alts -> existsb (fun y => smem y names) x = false -> requires d names a /\ ~ group a /\ ~ supplied d names a) as Bad.
  { intros a x I E. destruct (Al _ _ I) as (Q & NG & NI & GA). split; [exact Q|]. split; [exact NG|]. intros [K|(x' & y & GA' & Y & Z)]; [contradiction|].
    rewrite GA in GA'. injection GA' as <-. enough (existsb (fun y => smem y names) x = true) by congruence. apply existsb_exists. exists y. split; [exact Y|now apply smem_spec]. }
  assert (forall b : bool, exists res0, (match missing with
      | [] => match find (fun a : str * list str => negb (existsb (fun x => smem x names) (snd a))) alts with
              | Some a => Ret (RFalse [] [fst a])
              | None => Ret RTrue
              end
      | m0 :: ms0 => Ret (RFalse [] (m0 :: ms0))
      end) = Ret res0 /\ (res0 = RTrue <-> forall r, requires d names r -> ~ group r -> supplied d names r)
      /\ (res0 = RTrue \/ exists bad, res0 = RFalse [] bad /\ bad <> [] /\ forall b, In b bad -> requires d names b /\ ~ group b /\ ~ supplied d names b)) as Main.
  { intros _. destruct missing as [|m ms] eqn:M.
    - destruct (find _ alts) as [(a, x)|] eqn:F.
      + apply find_some in F. destruct F as (I & F). cbn [snd fst] in *. apply negb_true_iff in F. destruct (Bad _ _ I F) as (Q & NG & NS).
        eexists. split; [reflexivity|]. split; [split; [discriminate|intros K; destruct NS; now apply K]|].
        right. eexists. split; [reflexivity|]. split; [discriminate|]. intros b [<-|[]]. tauto.
      + eexists. split; [reflexivity|]. split; [|now left]. split; [intros _|reflexivity]. intros r Q NG. apply Sup; auto.
        destruct (in_dec (list_eq_dec N.eq_dec) r names) as [I|I]; [now left|]. right.
        assert (In r res) as Ir by now apply Rs. rewrite <- W2 in Ir. apply in_map_iff in Ir. destruct Ir as ((r', x) & <- & Ir). cbn [fst] in *.
        pose proof (find_none _ _ F _ Ir) as K. cbn [snd] in K. apply negb_false_iff, existsb_exists in K. destruct K as (y & Y & Z). exists x, y. split; [exact Ir|]. split; [exact Y|now apply smem_spec].
    - assert (forall b, In b (m :: ms) -> requires d names b /\ ~ group b /\ ~ supplied d names b) as All.
      { intros b Ib. rewrite <- M in Ib. unfold missing in Ib. apply in_map_iff in Ib. destruct Ib as ((b', x) & <- & Ib). apply filter_In in Ib. destruct Ib as (Ib & E). cbn [snd fst] in *.
        destruct x; [|discriminate E]. now apply (Bad _ []). }
      eexists. split; [reflexivity|]. split.
      + split; [discriminate|]. intros K. destruct (All m (or_introl eq_refl)) as (Q & NG & NS). destruct NS. now apply K.
      + right. eexists. split; [reflexivity|]. split; [discriminate|exact All]. }
  destruct res as [|r0 rs] eqn:Er, gs as [|g0 gs'] eqn:Eg; try exact (Main true).
  eexists. split; [reflexivity|]. split; [|now left]. split; [intros _|reflexivity]. intros r Q NG. left.
  destruct (in_dec (list_eq_dec N.eq_dec) r names) as [I|I]; [exact I|]. exfalso. now apply (Rs r).
Qed.

(** ** Mandatory categories *)
Lemma mandatory_cats_ok defs : (forall k t, In (k, t) defs -> tget (u "_category.mandatory_code") t = Some (VStr (u "yes")) -> exists c, tget (u "_category.id") t = Some (VStr c)) ->
  exists l, mandatory_cats defs = Ret l /\ forall c, In c l <-> exists k t, In (k, t) defs /\ tget (u "_category.mandatory_code") t = Some (VStr (u "yes")) /\ tget (u "_category.id") t = Some (VStr c).
Proof.
  induction defs as [|(k, t) r IH]; intros H; [exists []; split; [reflexivity|]; intros c; split; [intros []|now intros (? & ? & [] & _)]|].
  destruct IH as (l & E & S); [intros k' t' I; apply (H k'); now right|]. cbn [mandatory_cats].
  destruct (veq_text (tget (u "_category.mandatory_code") t) (u "yes")) eqn:V.
  - assert (tget (u "_category.mandatory_code") t = Some (VStr (u "yes"))) as V'.
    { now apply veq_text_spec. }
    destruct (H k t (or_introl eq_refl) V') as (c & C). rewrite C, E. exists (c :: l). split; [reflexivity|]. intros x. cbn [In]. rewrite S. split.
    + intros [<-|(k' & t' & K)]; [exists k, t; tauto|exists k', t'; tauto].
    + intros (k' & t' & [I|I] & K); [injection I as <- <-; left; destruct K as (_ & K); congruence|right; now exists k', t'].
  - exists l. split; [exact E|]. intros x. rewrite S. split.
    + intros (k' & t' & K). exists k', t'. cbn [In]. tauto.
    + intros (k' & t' & [I|I] & K & K2); [|now exists k', t']. injection I as <- <-. rewrite K in V. cbn in V. discriminate V.
Qed.
Lemma block_cats_ok d names : (forall a, In a names -> exists def, dic_get d a = Ret def /\ (tget (d_cat_spec d) def = None \/ exists c, tget (d_cat_spec d) def = Some (VStr c))) ->
  exists l, block_cats d names = Ret l /\ forall c, In c l <-> exists a def, In a names /\ dic_get d a = Ret def /\ tget (d_cat_spec d) def = Some (VStr c).
Proof.
  induction names as [|a r IH]; intros H; [exists []; split; [reflexivity|]; intros c; split; [intros []|now intros (? & ? & [] & _)]|].
  destruct IH as (l & E & S); [intros b I; apply H; now right|]. destruct (H a (or_introl eq_refl)) as (def & D & C). cbn [block_cats]. rewrite D. cbn [obind].
  destruct C as [C|(c & C)]; rewrite C, E.
  - exists l. split; [reflexivity|]. intros x. rewrite S. split.
    + intros (b & def' & K). exists b, def'. cbn [In]. tauto.
    + intros (b & def' & [<-|I] & K & K2); [congruence|]. now exists b, def'.
  - exists (c :: l). split; [reflexivity|]. intros x. cbn [In]. rewrite S. split.
    + intros [<-|(b & def' & K)]; [exists a, def; tauto|exists b, def'; tauto].
    + intros (b & def' & [<-|I] & K & K2); [left; congruence|]. right. now exists b, def'.
Qed.
Lemma mandatory_exact d t : (forall k x, In (k, x) (d_defs d) -> tget (u "_category.mandatory_code") x = Some (VStr (u "yes")) -> exists c, tget (u "_category.id") x = Some (VStr c)) ->
  (forall k v, In (k, v) t -> exists def, dic_get d k = Ret def /\ (tget (d_cat_spec d) def = None \/ exists c, tget (d_cat_spec d) def = Some (VStr c))) ->
  exists res, validate_mandatory_category d t = Ret res /\ (res = RTrue <-> forall c, wanted d c -> has_category d t c)
  /\ (res = RTrue \/ exists bad, res = RFalse [] bad /\ forall c, In c bad <-> wanted d c /\ ~ has_category d t c).
Proof.
  intros H1 H2. destruct (mandatory_cats_ok _ H1) as (mand & E & M). destruct (block_cats_ok d (tkeys t)) as (cats & E2 & C).
  { intros a Ia. unfold tkeys, dkeys in Ia. apply in_map_iff in Ia. destruct Ia as ((k, v) & <- & I). exact (H2 _ _ I). }
  assert (forall c, In c cats <-> has_category d t c) as C'.
  { intros c. rewrite C. unfold has_category, tkeys, dkeys. split.
    - intros (a & def & I & K). apply in_map_iff in I. destruct I as ((k, v) & <- & I). now exists k, v, def.
    - intros (k & v & def & I & K). exists k, def. split; [now apply (in_map fst) in I|exact K]. }
  unfold validate_mandatory_category. rewrite E. cbn [obind].
  assert (forall m ms, mand = m :: ms -> exists res, obind (block_cats d (tkeys t)) (fun cats => match filter (fun m => negb (smem m cats)) mand with [] => Ret RTrue | missing => Ret (RFalse [] missing) end) = Ret res
     /\ (res = RTrue <-> forall c, wanted d c -> has_category d t c) /\ (res = RTrue \/ exists bad, res = RFalse [] bad /\ forall c, In c bad <-> wanted d c /\ ~ has_category d t c)) as Main.
  { intros m ms _. rewrite E2. cbn [obind].
    assert (forall c, In c (filter (fun m => negb (smem m cats)) mand) <-> wanted d c /\ ~ has_category d t c) as F.
    { intros c. rewrite filter_In, negb_true_iff, <- not_true_iff_false, smem_spec, C', M. unfold wanted. tauto. }
    destruct (filter _ mand) as [|b bs] eqn:Fe.
    - eexists. split; [reflexivity|]. split; [|now left]. split; [intros _|reflexivity]. intros c W. apply C'.
      destruct (in_dec (list_eq_dec N.eq_dec) c cats) as [I|I]; [exact I|]. exfalso. apply (F c). split; [exact W|now rewrite <- C'].
    - eexists. split; [reflexivity|]. split.
      + split; [discriminate|]. intros K. destruct (proj1 (F b) (or_introl eq_refl)) as (W & NH). destruct NH. now apply K.
      + right. eexists. split; [reflexivity|]. exact F. }
  destruct mand as [|m ms]; [|exact (Main m ms eq_refl)].
  eexists. split; [reflexivity|]. split; [|now left]. split; [intros _|reflexivity]. intros c W. apply M in W. destruct W.
Qed.

(** ** Mandatory and prohibited attributes *)
Lemma scope_of_ok t default s : in_scope t default s -> scope_of t default = Ret s.
Proof.
  unfold scope_of, tmem. intros [T|s' T S|T S].
  - destruct (tget (u "_dictionary.title") t); [reflexivity|contradiction].
  - now rewrite T, S.
  - now rewrite T, S.
Qed.
Lemma check_scope_ok pick (P : str -> Prop) sc t default s names : (forall a, pick a = true <-> P a) -> in_scope t default s -> default <> u "Datablock" -> dget str_eqb s sc = Some names ->
  exists res, check_scope pick sc t default = Ret res /\ (res = RTrue <-> forall a, In a names -> ~ P a)
  /\ (res = RTrue \/ exists bad, res = RFalse [] bad /\ bad <> [] /\ forall a, In a bad <-> In a names /\ P a).
Proof.
  intros HP I N G. unfold check_scope. destruct sc as [|x sc]; [discriminate G|]. set (sc' := x :: sc) in *.
  destruct (str_eqb_spec default (u "Datablock")) as [E|_]; [contradiction|]. rewrite (scope_of_ok _ _ _ I). cbn [obind]. rewrite G.
  assert (forall a, In a (filter pick names) <-> In a names /\ P a) as F by (intros a; now rewrite filter_In, HP).
  destruct (filter pick names) as [|b bs] eqn:Fe; eexists; (split; [reflexivity|]).
  - split; [|now left]. split; [|reflexivity]. intros _ a Ia Pa. now apply (F a).
  - split; [|right; eexists; split; [reflexivity|]; split; [discriminate|exact F]]. split; [discriminate|]. intros K. destruct (proj1 (F b) (or_introl eq_refl)) as (Ib & Pb). now destruct (K b Ib).
Qed.
