From Coq Require Import String Ascii List NArith Bool Lia.
From Verif Require Import PyBase PyFacts StarBlockModel ValidateModel ValidateSpec ValidateProofs ValidateProofs2 ValidateProofs3 TreeModel TreeSpec TreeProofs TreeProofs2 KeyModel KeySpec KeyProofs.
Import ListNotations.
Open Scope nat_scope.

(** ** The table of objects *)
Lemma el_get (el : list (str * list str)) a ks : dget str_eqb a el = Some ks -> In (a, ks) el.
Proof. apply (dget_In str_eqb str_eqb_spec). Qed.
Lemma cat_obj_ok n d tbl : well_formed d -> cat_obj_table n d = Ret tbl ->
  (forall c o ns, dget pair_eqb (c, o) tbl = Some ns -> exists nm r, ns = nm :: r /\ (owns d c o nm \/ ((forall nm', ~ owns d c o nm') /\ exists c', loop_below d c c' /\ holds d c' o nm)))
  /\ (forall c o nm, owns d c o nm -> dget pair_eqb (c, o) tbl <> None)
  /\ (forall p c o nm, loop_child d p c -> holds d c o nm -> (forall c' o', ~ holds d c' nm o') -> dget pair_eqb (p, o) tbl <> None).
Proof.
  intros W. unfold cat_obj_table. destruct (base_table d []) as [base|] eqn:B; cbn [obind]; [|discriminate].
  destruct (expand_list_ok d W) as (el & -> & Nd & El & Ek). cbn [obind].
  destruct (expand_all n d el el []) as [extra|] eqn:X; cbn [obind]; [|discriminate]. intros E. injection E as <-.
  destruct (expand_all_sound d W el) with (n := n) (l := el) (x := @nil ((str * str) * list str)) (x' := extra) as (S & _ & P).
  - intros a ks G k I. now apply (El a ks (el_get _ _ _ G)).
  - intros a ks I k K. now apply (El a ks I).
  - intros p o ns K. discriminate K.
  - exact X.
  - split; [|split].
    + intros c o ns. rewrite join_get. destruct (base_ok d [] base B c o) as (A1 & A2). destruct (dget pair_eqb (c, o) base) as [b|].
      * destruct (A1 b eq_refl) as [(nm & -> & O)|(_ & K)]; [|discriminate K]. intros E. injection E as <-. exists nm. eexists. split; [reflexivity|]. now left.
      * destruct (A2 eq_refl) as (N & _). intros G. destruct (S _ _ _ G) as (Ne & H). destruct ns as [|nm r]; [contradiction|]. exists nm, r. split; [reflexivity|]. right. split; [exact N|]. apply H. now left.
    + intros c o nm O. rewrite join_get. destruct (base_ok d [] base B c o) as (_ & A2). destruct (dget pair_eqb (c, o) base); [discriminate|]. destruct (A2 eq_refl) as (N & _). now destruct (N nm).
    + intros p c o nm L H Hn. rewrite join_get. destruct (Ek p c L) as (ks & I). destruct (dget pair_eqb (p, o) base); [discriminate|].
      apply (P p ks c o nm I); auto. now apply (El p ks I).
Qed.
Lemma name_lookup tbl cat obj nm : name_by_cat_obj tbl cat obj = Ret nm <->
  exists tc r, (cat = 95%N :: tc \/ (cat = tc /\ tc <> [] /\ forall x, tc <> 95%N :: x)) /\ dget pair_eqb (lower tc, lower obj) tbl = Some (nm :: r).
Proof.
  unfold name_by_cat_obj. destruct cat as [|c r].
  - split; [discriminate|]. intros (tc & r & [K|(<- & K & _)] & _); [discriminate K|contradiction].
  - destruct (N.eqb_spec c 95) as [->|N].
    + split.
      * destruct (dget pair_eqb (lower r, lower obj) tbl) as [[|a l]|] eqn:G; try discriminate. intros E. injection E as <-. exists r, l. split; [now left|exact G].
      * intros (tc & l & [K|(<- & _ & K)] & G); [injection K as <-; now rewrite G|]. now destruct (K r).
    + split.
      * destruct (dget pair_eqb (lower (c :: r), lower obj) tbl) as [[|a l]|] eqn:G; try discriminate. intros E. injection E as <-. exists (c :: r), l. split; [right|exact G].
        split; [reflexivity|]. split; [discriminate|]. intros x K. injection K as -> _. contradiction.
      * intros (tc & l & [K|(<- & _ & K)] & G); [injection K as -> _; contradiction|now rewrite G].
Qed.

(** *** It is computed *)
Section total.
Variable d : defs.
Hypothesis W : well_formed d.
Variable height : str -> nat.
Hypothesis H : forall p c, loop_child d p c -> height c < height p.
(** Items have their texts. *)
Definition described : Prop := forall k t, In (k, t) d -> item_scope t -> exists o i, tget a_object t = Some (VStr o) /\ tget a_def_id t = Some (VStr i).
Definition apart : Prop := forall c o nm c' o', holds d c o nm -> ~ holds d c' nm o'.
Hypothesis D : described.
Hypothesis A : apart.
Lemma pairs_total names : (forall n, In n names -> exists t, In (n, t) d /\ item_scope t) -> exists l, pairs_of d names = Ret l.
Proof.
  induction names as [|n r IH]; intros K; [now exists []|]. destruct IH as (l & E); [intros m I; apply K; now right|]. destruct (K n (or_introl eq_refl)) as (t & I & S).
  cbn [pairs_of]. unfold def_of. rewrite (w_lower d W n t I), (proj2 (defs_dget d n t (w_keys d W)) I). cbn [obind]. destruct (veq_text _ _); [now exists l|].
  destruct (D n t I S) as (o & i & -> & ->). rewrite E. cbn [obind]. eexists. reflexivity.
Qed.
Lemma cat_pairs_total c : exists l, cat_pairs d c = Ret l.
Proof.
  unfold cat_pairs, names_in_cat. destruct (immediate_ok d c W) as (kids & -> & _ & K). cbn [obind]. apply pairs_total. intros n I. apply filter_In in I. destruct I as (_ & F).
  destruct (dget str_eqb n d) as [t|] eqn:G; [|discriminate F]. exists t. split; [now apply (defs_dget d _ _ (w_keys d W))|now apply item_bool].
Qed.
Variable el : list (str * list str).
Hypothesis EL : forall a ks, dget str_eqb a el = Some ks -> forall k, In k ks -> loop_child d a k.
Lemma each_total rec p : (forall c ks x x' l, (forall k, In k ks -> loop_child d c k) -> sound d x -> rec c ks x = Ret (x', l) -> sound d x' /\ weakly d c l /\ grows x x') ->
  forall kids extra cn x, (forall k, In k kids -> loop_child d p k) -> sound d x -> strictly d p extra -> strictly d p cn ->
  (forall c ks x, In c kids -> dget str_eqb c el = Some ks -> sound d x -> exists r, rec c ks x = Ret r) -> exists r, each_child rec d el p kids extra cn x = Ret r.
Proof.
  intros R. induction kids as [|c r IH]; intros extra cn x HK S Qe Qc T; cbn [each_child]; [eexists; reflexivity|].
  pose proof (HK c (or_introl eq_refl)) as L.
  assert (exists xn, (match dget str_eqb c el with Some ks => rec c ks x | None => Ret (x, []) end) = Ret xn /\ sound d (fst xn) /\ strictly d p (snd xn)) as ((x1, l1) & E & S1 & Q1).
  { destruct (dget str_eqb c el) as [ks|] eqn:G; [|exists (x, []); split; [reflexivity|]; split; [exact S|intros ? ? []]].
    destruct (T c ks x (or_introl eq_refl) G S) as ((x1, l1) & E). exists (x1, l1). destruct (R _ _ _ _ _ (EL _ _ G) S E) as (S1 & W1 & _). split; [exact E|]. split; [exact S1|exact (weak_strict d p c l1 L W1)]. }
  rewrite E. cbn [obind fst snd] in *. destruct (cat_pairs_total c) as (own & Ec). rewrite Ec. cbn [obind]. cbv zeta.
  assert (strictly d p (extra ++ l1)) as Qe' by (intros o nm I; apply in_app_iff in I; destruct I; [now apply Qe|now apply Q1]).
  assert (strictly d p (own ++ extra ++ l1)) as Qc' by (intros o nm I; apply in_app_iff in I; destruct I as [I|I]; [exact (pairs_strict d W p c own L Ec o nm I)|now apply Qe']).
  apply IH; auto; [intros k I; apply HK; now right|now apply add_pairs_sound|intros c' ks y I G Sy; apply (T c' ks y); auto; now right].
Qed.
Lemma no_repeats x l p : sound d x -> strictly d p l -> filter (fun on => dmem pair_eqb on x) l = [].
Proof.
  intros S Q. apply filter_nil. intros (o, nm) I. rewrite omem_get. destruct (dget pair_eqb (o, nm) x) as [ns|] eqn:G; [|reflexivity]. exfalso.
  destruct (S _ _ _ G) as (Ne & Hn). destruct ns as [|n0 ns]; [contradiction|]. destruct (Hn n0 (or_introl eq_refl)) as (c & _ & Hc). destruct (Q o nm I) as (c' & _ & Hc'). exact (A _ _ _ _ _ Hc' Hc).
Qed.
Lemma expand_total n : forall p kids x, height p < n -> (forall k, In k kids -> loop_child d p k) -> sound d x -> exists r, expand_base n d el p kids x = Ret r.
Proof.
  induction n as [|n IH]; intros p kids x Hn HK S; [lia|]. cbn [expand_base].
  assert (forall c ks y y' l, (forall k, In k ks -> loop_child d c k) -> sound d y -> expand_base n d el c ks y = Ret (y', l) -> sound d y' /\ weakly d c l /\ grows y y') as R.
  { intros c ks y y' l Hk Sy E. destruct (expand_base_sound d W el EL n _ _ _ _ _ Hk Sy E) as (S1 & W1 & G1 & _). tauto. }
  destruct (each_total (expand_base n d el) p R kids [] [] x HK S) as ((x1, l1) & E).
  - intros ? ? [].
  - intros ? ? [].
  - intros c ks y I G Sy. apply IH; [specialize (H p c (HK c I)); lia|exact (EL c ks G)|exact Sy].
  - destruct (each_sound d W el EL (expand_base n d el) p R kids [] [] x x1 l1 HK S) as (S1 & Q1 & _); [intros ? ? []|intros ? ? []|exact E|].
    rewrite E. cbn [obind fst snd]. rewrite (no_repeats x1 l1 p S1 Q1). cbn [append_repeats obind]. destruct (cat_pairs_total p) as (own & ->). eexists. reflexivity.
Qed.
Lemma all_total n l : (forall a ks, In (a, ks) l -> height a < n /\ forall k, In k ks -> loop_child d a k) -> forall x, sound d x -> exists x', expand_all n d el l x = Ret x'.
Proof.
  induction l as [|(p, kids) r IH]; intros K x S; [eexists; reflexivity|]. cbn [expand_all]. destruct (K p kids (or_introl eq_refl)) as (Hn & HK).
  destruct (expand_total n p kids x Hn HK S) as ((x1, l1) & E). rewrite E. cbn [obind fst].
  apply IH; [intros a ks I; apply K; now right|]. now destruct (expand_base_sound d W el EL n _ _ _ _ _ HK S E).
Qed.
Lemma base_total : forall l acc, incl l d -> exists b, base_table l acc = Ret b.
Proof.
  induction l as [|(k, t) r IH]; intros acc I; [eexists; reflexivity|]. cbn [base_table]. unfold is_item.
  assert (incl r d) as Ir by (intros x X; apply I; now right). destruct (match tget a_scope t with None => true | o => veq_text o (u "Item") end) eqn:F; [|now apply IH].
  apply item_bool in F. destruct (D k t (I _ (or_introl eq_refl)) F) as (o & i & Eo & Ei).
  assert (exists c, lower_text a_category t = Ret c) as (c & Ec).
  { unfold lower_text, a_category. destruct (tget (u "_name.category_id") t) as [v|] eqn:G; [|eexists; reflexivity]. destruct (w_text d W k t v (I _ (or_introl eq_refl)) G) as (s & ->). eexists. reflexivity. }
  rewrite Ec. cbn [obind]. unfold lower_text. rewrite Eo. cbn [obind]. rewrite Ei. now apply IH.
Qed.
End total.
Lemma cat_obj_total n d height : well_formed d -> (forall p c, loop_child d p c -> height c < height p) -> (forall p c, loop_child d p c -> height p < n) -> described d -> apart d ->
  exists tbl, cat_obj_table n d = Ret tbl.
Proof.
  intros W H Hn D A. unfold cat_obj_table. destruct (base_total d W D d [] (incl_refl d)) as (b & ->). cbn [obind].
  destruct (expand_list_ok d W) as (el & -> & Nd & El & Ek). cbn [obind].
  assert (forall a ks, dget str_eqb a el = Some ks -> forall k, In k ks -> loop_child d a k) as EL by (intros a ks G k I; now apply (El a ks (el_get _ _ _ G))).
  destruct (all_total d W height H D A el EL n el) with (x := @nil ((str * str) * list str)) as (x & ->); [|intros p o ns K; discriminate K|eexists; reflexivity].
  intros a ks I. destruct (El a ks I) as (_ & Ne & _ & K). split; [|intros k; apply K]. destruct ks as [|k0 ks]; [contradiction|]. apply (Hn a k0), K. now left.
Qed.

(** ** The table of keys *)
Definition keyed (d : defs) : Prop := forall c t, In (c, t) d -> looped d c -> exists ks, key_is t ks.
Lemma key_is_own t ks : key_is t ks -> own_key t = Ret (map VStr ks).
Proof. unfold own_key, a_key_name, a_key_id. intros [s E|l E|l E|s E E']; rewrite E; try reflexivity. now rewrite E'. Qed.
Lemma key_is_names t ks : key_is t ks -> tget (u "_category_key.name") t <> None -> key_names t = Ret ks.
Proof. unfold key_names, a_key_name. intros [s E|l E|l E|s E E'] N; rewrite E; try reflexivity; try apply texts_map. contradiction. Qed.
Lemma looped_def d c : well_formed d -> looped d c -> exists t, In (c, t) d /\ def_of d c = Ret t.
Proof. intros W (t & I & _). exists t. split; [exact I|]. unfold def_of. now rewrite (w_lower d W c t I), (proj2 (defs_dget d c t (w_keys d W)) I). Qed.
(** The key of a category is [ks]. *)
Definition has_key (d : defs) (c : str) (ks : list str) : Prop := exists t, In (c, t) d /\ key_is t ks.
Lemma own_keys_ok d cats : well_formed d -> keyed d -> (forall c, In c cats -> looped d c) ->
  exists tbl, own_keys d cats = Ret tbl /\ map fst tbl = cats /\ forall c l, In (c, l) tbl -> exists ks, l = [map VStr ks] /\ has_key d c ks.
Proof.
  intros W K. induction cats as [|c r IH]; intros L; [exists []; repeat split; intros ? ? []|].
  destruct IH as (tbl & E & M & P); [intros x I; apply L; now right|]. destruct (looped_def d c W (L c (or_introl eq_refl))) as (t & I & Ed).
  destruct (K c t I (L c (or_introl eq_refl))) as (ks & Kt). cbn [own_keys]. rewrite Ed. cbn [obind]. rewrite (key_is_own _ _ Kt). cbn [obind]. rewrite E. cbn [obind].
  eexists. split; [reflexivity|]. split; [cbn; now rewrite M|]. intros x l [J|J]; [injection J as <- <-|now apply P]. exists ks. split; [reflexivity|]. now exists t.
Qed.
Lemma collect_ok d el kids : well_formed d -> keyed d -> (forall k, In k kids -> looped d k) -> (forall k, In k kids -> ~ In k (map fst el)) ->
  exists kk, collect d el kids = Ret kk /\ Forall2 (fun k l => exists ks, l = map VStr ks /\ has_key d k ks) kids kk.
Proof.
  intros W K. induction kids as [|c r IH]; intros L N; [exists []; split; [reflexivity|constructor]|].
  destruct IH as (kk & E & F); [intros x I; apply L; now right|intros x I; apply N; now right|]. cbn [collect].
  assert (dmem str_eqb c el = false) as ->.
  { unfold dmem. destruct (dget str_eqb c el) as [x|] eqn:G; [|reflexivity]. apply el_get in G. destruct (N c (or_introl eq_refl)). now apply (in_map fst) in G. }
  destruct (looped_def d c W (L c (or_introl eq_refl))) as (t & I & Ed). destruct (K c t I (L c (or_introl eq_refl))) as (ks & Kt).
  rewrite Ed. cbn [obind]. rewrite (key_is_own _ _ Kt). cbn [obind]. rewrite E. cbn [obind]. eexists. split; [reflexivity|]. constructor; [|exact F]. exists ks. split; [reflexivity|]. now exists t.
Qed.
Lemma collect_nested d el kids k : well_formed d -> keyed d -> (forall k, In k kids -> looped d k) -> In k kids -> In k (map fst el) -> collect d el kids = Raise TypeErr.
Proof.
  intros W K. induction kids as [|c r IH]; intros L I N; [destruct I|]. cbn [collect]. destruct (dmem str_eqb c el) eqn:M; [reflexivity|].
  destruct I as [<-|I].
  - exfalso. unfold dmem in M. apply in_map_iff in N. destruct N as ((k, ks) & <- & N). cbn [fst] in *.
    destruct (dget str_eqb k el) eqn:G; [discriminate M|]. apply (dget_None str_eqb str_eqb_spec) in G. apply G. now apply (in_map fst) in N.
  - destruct (looped_def d c W (L c (or_introl eq_refl))) as (t & It & Ed). destruct (K c t It (L c (or_introl eq_refl))) as (ks & Kt).
    rewrite Ed. cbn [obind]. rewrite (key_is_own _ _ Kt). cbn [obind]. rewrite (IH (fun x X => L x (or_intror X)) I N). reflexivity.
Qed.
(** A loop category, its own key first, then those of the loop categories below. *)
Definition key_entry (d : defs) (c : str) (l : list (list value)) : Prop :=
  exists own kids kk, l = map VStr own :: kk /\ has_key d c own /\ NoDup kids /\ (forall k, In k kids <-> loop_child d c k) /\ Forall2 (fun k l => exists ks, l = map VStr ks /\ has_key d k ks) kids kk.
Lemma collect_all_ok d el : well_formed d -> keyed d -> forall l tbl,
  (forall a ks, In (a, ks) l -> looped d a /\ NoDup ks /\ (forall k, In k ks <-> loop_child d a k) /\ (forall k, In k ks -> ~ In k (map fst el))) -> NoDup (map fst l) ->
  (forall a ks, In (a, ks) l -> exists own, dget str_eqb a tbl = Some [map VStr own] /\ has_key d a own) ->
  exists tbl', collect_all d el l tbl = Ret tbl' /\ (forall c, dget str_eqb c tbl' = None <-> dget str_eqb c tbl = None)
  /\ (forall c, ~ In c (map fst l) -> dget str_eqb c tbl' = dget str_eqb c tbl) /\ (forall c v, In c (map fst l) -> dget str_eqb c tbl' = Some v -> key_entry d c v).
Proof.
  intros W K. induction l as [|(p, kids) r IH]; intros tbl HL Nd HT.
  - exists tbl. split; [reflexivity|]. split; [tauto|]. split; [auto|]. intros ? ? [].
  - cbn [collect_all]. destruct (HL p kids (or_introl eq_refl)) as (Lp & Nk & Kc & Kn). destruct (collect_ok d el kids W K) as (kk & E & F); [intros k I; apply Kc in I; apply I|exact Kn|].
    rewrite E. cbn [obind]. destruct (HT p kids (or_introl eq_refl)) as (own & G & Hk). rewrite G. inversion Nd as [|? ? Np Nr]; subst.
    destruct (IH (dset str_eqb p ([map VStr own] ++ kk) tbl)) as (tbl' & E' & A & B & C).
    + intros a ks I. apply HL. now right.
    + exact Nr.
    + intros a ks I. destruct (HT a ks (or_intror I)) as (own' & G' & Hk'). exists own'. split; [|exact Hk']. rewrite dget_dset_other; [exact G'|]. intros ->. apply Np. now apply (in_map fst) in I.
    + exists tbl'. split; [exact E'|]. split; [|split].
      * intros c. rewrite A. destruct (str_eqb_spec c p) as [->|N]; [rewrite dget_dset_same, G; split; discriminate|now rewrite dget_dset_other].
      * intros c N. cbn [map fst In] in N. rewrite B; [|tauto]. apply dget_dset_other. intros ->. apply N. now left.
      * intros c v [<-|I] Gv; [|now apply C]. cbn [fst] in *. rewrite B, dget_dset_same in Gv by exact Np. injection Gv as <-. exists own, kids, kk. cbn [app]. tauto.
Qed.
Definition two_levels (d : defs) : Prop := forall p c g, loop_child d p c -> ~ loop_child d c g.
Lemma key_table_ok d : well_formed d -> keyed d -> two_levels d ->
  exists tbl, cat_key_table d = Ret tbl /\ (forall c, (exists v, dget str_eqb c tbl = Some v) <-> looped d c) /\ forall c v, dget str_eqb c tbl = Some v -> key_entry d c v.
Proof.
  intros W K T. unfold cat_key_table. destruct (own_keys_ok d (loopable d) W K) as (tbl & -> & M & P); [intros c I; now apply (loopable_ok d c W)|]. cbn [obind].
  destruct (expand_list_ok d W) as (el & -> & Nd & El & Ek). cbn [obind].
  assert (NoDup (map fst tbl)) as Nt by (rewrite M; now apply loopable_nodup).
  assert (forall c, looped d c -> exists own, dget str_eqb c tbl = Some [map VStr own] /\ has_key d c own) as G.
  { intros c L. apply (loopable_ok d c W) in L. rewrite <- M in L. apply in_map_iff in L. destruct L as ((c', l) & <- & I). destruct (P _ _ I) as (ks & -> & Hk). exists ks. split; [|exact Hk].
    now apply (dget_In_NoDup str_eqb str_eqb_spec). }
  destruct (collect_all_ok d el W K el tbl) as (tbl' & E & A & B & C).
  - intros a ks I. destruct (El a ks I) as (L & _ & Nk & Kc). repeat (split; [assumption|]). intros k Ik N. apply in_map_iff in N. destruct N as ((k', ks') & <- & N). cbn [fst] in *.
    destruct (El _ _ N) as (_ & Ne & _ & Kc'). destruct ks' as [|g gs]; [contradiction|]. apply (T a k' g); [now apply Kc|apply Kc'; now left].
  - exact Nd.
  - intros a ks I. apply G. exact (proj1 (El a ks I)).
  - exists tbl'. split; [exact E|].
    assert (forall c, (exists v, dget str_eqb c tbl' = Some v) <-> looped d c) as Dm.
    { intros c. split.
      - intros (v & Gv). destruct (dget str_eqb c tbl) as [w|] eqn:Gw; [|apply A in Gw; congruence]. apply (dget_In str_eqb str_eqb_spec) in Gw. apply (in_map fst) in Gw. rewrite M in Gw. now apply (loopable_ok d c W).
      - intros L. destruct (G c L) as (own & Gw & _). destruct (dget str_eqb c tbl') as [v|] eqn:Gv; [now exists v|]. apply A in Gv. congruence. }
    split; [exact Dm|]. intros c v Gv. destruct (in_dec (list_eq_dec N.eq_dec) c (map fst el)) as [I|N]; [now apply C|].
    destruct (G c (proj1 (Dm c) (ex_intro _ v Gv))) as (own & Gw & Hk). rewrite (B c N), Gw in Gv. injection Gv as <-. exists own, [], []. split; [reflexivity|]. split; [exact Hk|]. split; [constructor|]. split; [|constructor].
    intros k. split; [intros []|]. intros L. destruct (Ek c k L) as (ks & I). apply N. now apply (in_map fst) in I.
Qed.
Lemma key_table_nested d p c g : well_formed d -> keyed d -> loop_child d p c -> loop_child d c g -> cat_key_table d = Raise TypeErr.
Proof.
  intros W K L1 L2. unfold cat_key_table. destruct (own_keys_ok d (loopable d) W K) as (tbl & -> & M & P); [intros x I; now apply (loopable_ok d x W)|]. cbn [obind].
  destruct (expand_list_ok d W) as (el & -> & Nd & El & Ek). cbn [obind].
  assert (forall x, looped d x -> dget str_eqb x tbl <> None) as G.
  { intros x L E. apply (dget_None str_eqb str_eqb_spec) in E. apply E. fold (dkeys tbl). unfold dkeys. rewrite M. now apply (loopable_ok d x W). }
  destruct (Ek p c L1) as (ks & I), (Ek c g L2) as (gs & J). clear P M.
  assert (forall l t, incl l el -> In (p, ks) l -> (forall x, looped d x -> dget str_eqb x t <> None) -> collect_all d el l t = Raise TypeErr) as H.
  { induction l as [|(q, kids) r IH]; intros t In1 In2 Gt; [destruct In2|]. cbn [collect_all]. destruct (El q kids (In1 _ (or_introl eq_refl))) as (Lq & _ & _ & Kq).
    assert (collect d el kids = Raise TypeErr \/ exists kk, collect d el kids = Ret kk) as [->|(kk & E)]; [|reflexivity|].
    { destruct (existsb (fun k => smem k (map fst el)) kids) eqn:X.
      - left. apply existsb_exists in X. destruct X as (k & Ik & S). apply smem_spec in S. apply (collect_nested d el kids k W K); auto. intros x Ix. apply Kq in Ix. apply Ix.
      - right. destruct (collect_ok d el kids W K) as (kk & E & _); [intros x Ix; apply Kq in Ix; apply Ix| |now exists kk].
        intros k Ik N. assert (existsb (fun k => smem k (map fst el)) kids = true) by (apply existsb_exists; exists k; split; [exact Ik|now apply smem_spec]). congruence. }
    rewrite E. cbn [obind]. destruct (dget str_eqb q t) as [old|] eqn:Gq; [|now destruct (Gt q Lq)]. destruct In2 as [In2|In2].
    - injection In2 as -> ->. exfalso. rewrite (collect_nested d el ks c W K) in E; [discriminate E|intros x Ix; apply Kq in Ix; apply Ix|now apply Kq|now apply (in_map fst) in J].
    - apply IH; [intros x X; apply In1; now right|exact In2|]. intros x Lx. destruct (str_eqb_spec x q) as [->|N]; [rewrite dget_dset_same; discriminate|rewrite dget_dset_other by exact N; now apply Gt]. }
  apply H; [apply incl_refl|exact I|exact G].
Qed.
(** The check of keys. *)
Lemma key_check d tbl a names x t c v rest : dget str_eqb (lower a) (d_defs d) = Some t -> tget (d_cat_spec d) t = Some (VStr x) -> dget str_eqb (lower x) (d_lookup d) = Some c ->
  (forall b, In b names -> exists t' y, dget str_eqb (lower b) (d_defs d) = Some t' /\ tget (d_cat_spec d) t' = Some (VStr y)) ->
  dget str_eqb c tbl = Some (map VStr v :: rest) ->
  validate_loop_key_ddlm d tbl (a :: names) = Ret (if existsb (fun k => smem k (a :: names)) v then RTrue else RFalse [] v).
Proof.
  intros Ga Gx Gc Gn Gv. assert (forall l, (forall b, In b l -> exists t' y, dget str_eqb (lower b) (d_defs d) = Some t' /\ tget (d_cat_spec d) t' = Some (VStr y)) -> exists cs, categories_of d l = Ret cs) as H.
  { induction l as [|b l IH]; intros K; [now exists []|]. destruct IH as (cs & E); [intros b' I; apply K; now right|]. destruct (K b (or_introl eq_refl)) as (t' & y & G1 & G2).
    cbn [categories_of]. rewrite G1, G2, E. eexists. reflexivity. }
  destruct (H names Gn) as (cs & E). unfold validate_loop_key_ddlm, get_final_cats. cbn [categories_of]. rewrite Ga, Gx, E. cbn [obind flat_map]. rewrite Gc. cbn [app]. rewrite Gv.
  assert (existsb (key_in (a :: names)) (map VStr v) = existsb (fun k => smem k (a :: names)) v) as -> by (clear; induction v as [|k v IH]; [reflexivity|cbn [map existsb key_in]; now rewrite IH]).
  assert (flat_map (fun v => match v with VStr s => [s] | _ => [] end) (map VStr v) = v) as -> by (clear; induction v as [|k v IH]; [reflexivity|cbn [map flat_map app]; now rewrite IH]).
  reflexivity.
Qed.
