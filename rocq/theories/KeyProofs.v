From Coq Require Import String Ascii List NArith Bool Lia.
From Verif Require Import PyBase PyFacts StarBlockModel ValidateModel ValidateSpec ValidateProofs ValidateProofs2 TreeModel TreeSpec TreeProofs TreeProofs2 KeyModel KeySpec.
Import ListNotations.
Open Scope nat_scope.

Lemma pair_eqb_spec a b : reflect (a = b) (pair_eqb a b).
Proof.
  destruct a as (a1, a2), b as (b1, b2). unfold pair_eqb. cbn [fst snd]. destruct (str_eqb_spec a1 b1) as [->|N]; [|right; congruence].
  destruct (str_eqb_spec a2 b2) as [->|N]; [left; reflexivity|right; congruence].
Qed.
Lemma oget_set k v (x : objtable) k' : dget pair_eqb k' (dset pair_eqb k v x) = if pair_eqb k k' then Some v else dget pair_eqb k' x.
Proof.
  induction x as [|(a, b) x IH]; cbn [dset dget].
  - destruct (pair_eqb_spec k k'), (pair_eqb_spec k' k); congruence.
  - destruct (pair_eqb_spec k a) as [->|N]; cbn [dget].
    + destruct (pair_eqb_spec k' a) as [->|N']; [now destruct (pair_eqb_spec a a)|]. destruct (pair_eqb_spec a k'); [congruence|reflexivity].
    + rewrite IH. destruct (pair_eqb_spec k' a) as [->|N']; [|reflexivity]. now destruct (pair_eqb_spec k a).
Qed.
Lemma omem_get k (x : objtable) : dmem pair_eqb k x = match dget pair_eqb k x with Some _ => true | None => false end.
Proof. reflexivity. Qed.

(** ** Items of a category *)
Lemma pairs_of_ok d names : well_formed d -> forall l, pairs_of d names = Ret l -> forall o nm, In (o, nm) l <->
  exists n t s, In n names /\ In (lower n, t) d /\ tget a_object t = Some (VStr s) /\ lower s = o /\ tget a_def_id t = Some (VStr nm) /\ tget (u "_type.purpose") t <> Some (VStr (u "Key")).
Proof.
  intros W. induction names as [|n r IH]; intros l; cbn [pairs_of].
  - intros E. injection E as <-. intros o nm. split; [intros []|]. now intros (? & ? & ? & [] & _).
  - unfold def_of. destruct (dget str_eqb (lower n) d) as [t|] eqn:G; [|discriminate]. cbn [obind]. apply (defs_dget d _ _ (w_keys d W)) in G.
    destruct (veq_text _ (u "Key")) eqn:V.
    + intros E o nm. rewrite (IH _ E). split.
      * intros (n' & t' & s & I & K). exists n', t', s. split; [now right|exact K].
      * intros (n' & t' & s & [<-|I] & K & R); [|now exists n', t', s]. exfalso. apply veq_text_spec in V.
        apply (defs_dget d _ _ (w_keys d W)) in G, K. rewrite G in K. injection K as <-. tauto.
    + destruct (tget a_object t) as [[so| | | | |]|] eqn:O; try discriminate. destruct (tget a_def_id t) as [[i| | | | |]|] eqn:D; try discriminate.
      destruct (pairs_of d r) as [l'|] eqn:E'; cbn [obind]; [|discriminate]. intros E. injection E as <-. intros o nm. cbn [In]. rewrite (IH _ eq_refl). split.
      * intros [K|(n' & t' & s & I & K)]; [|exists n', t', s; split; [now right|exact K]]. injection K as <- <-. exists n, t, so. repeat (split; [tauto || assumption || reflexivity|]).
        rewrite <- (veq_text_spec _ (u "Key")), V. discriminate.
      * intros (n' & t' & s & [<-|I] & K & R); [left|right; now exists n', t', s].
        apply (defs_dget d _ _ (w_keys d W)) in G, K. rewrite G in K. injection K as <-. destruct R as (R1 & R2 & R3 & _). rewrite R1 in O. injection O as <-. rewrite R3 in D. injection D as <-. now rewrite R2.
Qed.
Lemma item_bool t : (match tget a_scope t with None => true | o => veq_text o (u "Item") end = true) <-> item_scope t.
Proof.
  unfold item_scope, a_scope. destruct (tget (u "_definition.scope") t) as [v|] eqn:E; [|split; auto]. rewrite veq_text_spec. split; [auto|]. intros [K|K]; [discriminate K|exact K].
Qed.
Lemma cat_pairs_ok d c l : well_formed d -> cat_pairs d c = Ret l -> forall o nm, In (o, nm) l <-> holds d c o nm.
Proof.
  intros W. unfold cat_pairs, names_in_cat. destruct (immediate_ok d c W) as (kids & -> & _ & K). cbn [obind]. intros E o nm. rewrite (pairs_of_ok _ _ W _ E). unfold holds. split.
  - intros (n & t & s & I & D & R). apply filter_In in I. destruct I as (I & F). apply K in I. rewrite (key_lower d n W (child_key _ _ _ I)) in D.
    rewrite (proj2 (defs_dget d n t (w_keys d W)) D) in F. apply item_bool in F. exists n, t, s. tauto.
  - intros (n & t & s & D & F & I & R). exists n, t, s. split; [|split; [now rewrite (key_lower d n W (child_key _ _ _ I))|exact R]].
    apply filter_In. split; [now apply K|]. rewrite (proj2 (defs_dget d n t (w_keys d W)) D). now apply item_bool.
Qed.
(** ** The list of loop categories *)
Lemma loopable_ok d a : well_formed d -> (In a (loopable d) <-> looped d a).
Proof.
  intros W. unfold loopable, looped. rewrite in_map_iff. split.
  - intros ((k, t) & <- & I). apply filter_In in I. destruct I as (I & L). cbn [fst snd] in *. rewrite (w_lower d W _ _ I). exists t. split; [exact I|]. now apply veq_text_spec.
  - intros (t & I & L). exists (a, t). cbn [fst]. split; [exact (w_lower d W _ _ I)|]. apply filter_In. split; [exact I|]. now apply veq_text_spec.
Qed.
Lemma looped_key d a : looped d a -> In a (map fst d).
Proof. intros (t & I & _). now apply (in_map fst) in I. Qed.
Lemma expand_list_of_ok d l : well_formed d -> exists el, expand_list_of d (loopable d) l = Ret el
  /\ (forall a ks, In (a, ks) el -> In a l /\ ks <> [] /\ NoDup ks /\ forall k, In k ks <-> child d k a /\ looped d k)
  /\ (forall a k, In a l -> child d k a -> looped d k -> exists ks, In (a, ks) el) /\ (NoDup l -> NoDup (map fst el)).
Proof.
  intros W. induction l as [|a r (el & E & A & B & N)].
  - exists []. split; [reflexivity|]. split; [intros ? ? []|]. split; [intros ? ? []|]. intros _. constructor.
  - cbn [expand_list_of]. destruct (immediate_ok d a W) as (kids & -> & Nk & K). cbn [obind]. rewrite E. cbn [obind].
    set (ks := filter (fun b => smem (lower b) (loopable d)) kids).
    assert (forall k, In k ks <-> child d k a /\ looped d k) as Ks.
    { intros k. unfold ks. rewrite filter_In, smem_spec, K, (loopable_ok d _ W). split; intros (C & L); (split; [exact C|]).
      - now rewrite (key_lower d k W (child_key _ _ _ C)) in L.
      - now rewrite (key_lower d k W (child_key _ _ _ C)). }
    assert (NoDup ks) as Nks by now apply NoDup_filter.
    exists (match ks with [] => el | _ => (a, ks) :: el end). split; [now destruct ks|]. split; [|split].
    + destruct ks as [|k0 ks'] eqn:Ek; intros b bs I.
      * destruct (A _ _ I) as (I' & R). split; [now right|exact R].
      * destruct I as [I|I]; [injection I as <- <-|destruct (A _ _ I) as (I' & R); split; [now right|exact R]]. split; [now left|]. split; [discriminate|]. now split.
    + intros b k [<-|I] C L.
      * destruct ks as [|k0 ks'] eqn:Ek; [exfalso; now apply (Ks k)|]. eexists. left. reflexivity.
      * destruct (B _ _ I C L) as (bs & Ib). exists bs. destruct ks; [exact Ib|now right].
    + intros Nd. inversion Nd as [|? ? Na Nr]; subst. destruct ks; [now apply N|]. cbn. constructor; [|now apply N]. intros I. apply in_map_iff in I. destruct I as ((b, bs) & Eb & I). cbn [fst] in Eb. subst b. now apply Na, (A _ _ I).
Qed.
Lemma loopable_nodup d : well_formed d -> NoDup (loopable d).
Proof.
  intros W. unfold loopable. assert (forall l : defs, incl l d -> NoDup (map fst l) -> NoDup (map (fun kt => lower (fst kt)) l)) as H.
  { intros l I. replace (map (fun kt => lower (fst kt)) l) with (map fst l); [auto|]. apply map_ext_in. intros (k, t) K. cbn [fst]. symmetry. apply (w_lower d W k t), I, K. }
  apply H; [intros x I; now apply filter_In in I|]. apply NoDup_map_filter, (w_keys d W).
Qed.
Lemma expand_list_ok d : well_formed d -> exists el, expand_list d = Ret el /\ NoDup (map fst el)
  /\ (forall a ks, In (a, ks) el -> looped d a /\ ks <> [] /\ NoDup ks /\ forall k, In k ks <-> loop_child d a k)
  /\ (forall a k, loop_child d a k -> exists ks, In (a, ks) el).
Proof.
  intros W. destruct (expand_list_of_ok d (loopable d) W) as (el & E & A & B & N). exists el. split; [exact E|]. split; [apply N, loopable_nodup, W|]. split.
  - intros a ks I. destruct (A _ _ I) as (Ia & Ne & Nd & K). apply (loopable_ok d a W) in Ia. repeat (split; [assumption|]). intros k. rewrite K. unfold loop_child. tauto.
  - intros a k (La & Lk & C). apply (B a k); auto. now apply loopable_ok.
Qed.

(** ** The table of objects *)
Section obj.
Variable d : defs.
Hypothesis W : well_formed d.
Variable el : list (str * list str).
Hypothesis EL : forall a ks, dget str_eqb a el = Some ks -> forall k, In k ks -> loop_child d a k.
(** What the table says is true. *)
Definition sound (x : objtable) : Prop := forall p o ns, dget pair_eqb (p, o) x = Some ns -> ns <> [] /\ forall nm, In nm ns -> exists c, loop_below d p c /\ holds d c o nm.
Definition strictly (p : str) (l : list (str * str)) : Prop := forall o nm, In (o, nm) l -> exists c, loop_below d p c /\ holds d c o nm.
Definition weakly (p : str) (l : list (str * str)) : Prop := forall o nm, In (o, nm) l -> exists c, (c = p \/ loop_below d p c) /\ holds d c o nm.
Definition grows (x x' : objtable) : Prop := forall k, dget pair_eqb k x <> None -> dget pair_eqb k x' <> None.
Lemma grows_refl x : grows x x. Proof. now intros k. Qed.
Lemma grows_trans x y z : grows x y -> grows y z -> grows x z. Proof. intros A B k K. now apply B, A. Qed.
Lemma below_trans p c c' : loop_below d p c -> loop_below d c c' -> loop_below d p c'.
Proof. intros A B. induction B; [now apply lb_more with c|now apply lb_more with c0]. Qed.
Lemma set_sound p o ns x : sound x -> ns <> [] -> (forall nm, In nm ns -> exists c, loop_below d p c /\ holds d c o nm) -> sound (dset pair_eqb (p, o) ns x).
Proof. intros S N H q o' ns'. rewrite oget_set. destruct (pair_eqb_spec (p, o) (q, o')) as [E|_]; [|apply S]. injection E as <- <-. intros E. injection E as <-. now split. Qed.
Lemma set_grows k v x : grows x (dset pair_eqb k v x).
Proof. intros k' K. rewrite oget_set. destruct (pair_eqb k k'); [discriminate|exact K]. Qed.
Lemma fold_sound p l : forall x, sound x -> strictly p l -> let x' := fold_left (fun acc on => dset pair_eqb (p, fst on) [snd on] acc) l x in
  sound x' /\ grows x x' /\ forall o nm, In (o, nm) l -> dget pair_eqb (p, o) x' <> None.
Proof.
  induction l as [|(o, nm) l IH]; intros x S Q; cbn [fold_left].
  - split; [exact S|]. split; [apply grows_refl|]. intros ? ? [].
  - destruct (IH (dset pair_eqb (p, o) [nm] x)) as (S' & G & P).
    + apply set_sound; [exact S|discriminate|]. intros nm' [<-|[]]. apply Q. now left.
    + intros o' nm' I. apply Q. now right.
    + cbn [fst snd]. split; [exact S'|]. split; [eapply grows_trans; [apply set_grows|exact G]|].
      intros o' nm' [K|K]; [|now apply (P _ nm')]. injection K as <- <-. apply G. rewrite oget_set. now destruct (pair_eqb_spec (p, o) (p, o)).
Qed.
Lemma add_pairs_sound p l x : sound x -> strictly p l -> sound (add_pairs p l x) /\ grows x (add_pairs p l x)
  /\ forall o nm, In (o, nm) l -> (forall c o', ~ holds d c nm o') -> dget pair_eqb (p, o) (add_pairs p l x) <> None.
Proof.
  intros S Q. unfold add_pairs. destruct (fold_sound p (filter (fun on => negb (dmem pair_eqb (p, snd on) x)) l) x S) as (S' & G & P).
  - intros o nm I. apply filter_In in I. now apply Q.
  - split; [exact S'|]. split; [exact G|]. intros o nm I H. apply (P o nm), filter_In. split; [exact I|]. rewrite omem_get. cbn [snd].
    destruct (dget pair_eqb (p, nm) x) as [ns|] eqn:E; [|reflexivity]. destruct (S _ _ _ E) as (N & K). destruct ns as [|n0 ns]; [contradiction|]. destruct (K n0 (or_introl eq_refl)) as (c & _ & Hc). now destruct (H c n0).
Qed.
Lemma append_sound p l : forall x x', sound x -> strictly p l -> append_repeats p l x = Ret x' -> sound x' /\ grows x x'.
Proof.
  induction l as [|(o, nm) l IH]; intros x x' S Q; cbn [append_repeats].
  - intros E. injection E as <-. split; [exact S|apply grows_refl].
  - destruct (dget pair_eqb (p, o) x) as [ns|] eqn:G; [|discriminate]. intros E. apply IH in E.
    + destruct E as (S' & G'). split; [exact S'|]. eapply grows_trans; [apply set_grows|exact G'].
    + apply set_sound; [exact S|now destruct ns|]. intros nm' I. apply in_app_iff in I. destruct I as [I|[<-|[]]]; [now apply (S _ _ _ G)|apply Q; now left].
    + intros o' nm' I. apply Q. now right.
Qed.
Lemma pairs_strict p c own : loop_child d p c -> cat_pairs d c = Ret own -> strictly p own.
Proof. intros L E o nm I. exists c. split; [now apply lb_one|]. now apply (cat_pairs_ok d c own W E). Qed.
Lemma weak_strict p c l : loop_child d p c -> weakly c l -> strictly p l.
Proof. intros L H o nm I. destruct (H o nm I) as (c' & [->|B] & Hc); [exists c|exists c']; (split; [|exact Hc]); [now apply lb_one|]. eapply below_trans; [apply lb_one, L|exact B]. Qed.
Lemma each_sound rec p : (forall c ks x x' l, (forall k, In k ks -> loop_child d c k) -> sound x -> rec c ks x = Ret (x', l) -> sound x' /\ weakly c l /\ grows x x') ->
  forall kids extra cn x x' l, (forall k, In k kids -> loop_child d p k) -> sound x -> strictly p extra -> strictly p cn -> each_child rec d el p kids extra cn x = Ret (x', l) ->
  sound x' /\ strictly p l /\ grows x x' /\ forall c o nm, In c kids -> holds d c o nm -> (forall c' o', ~ holds d c' nm o') -> dget pair_eqb (p, o) x' <> None.
Proof.
  intros R. induction kids as [|c r IH]; intros extra cn x x' l HK S Qe Qc; cbn [each_child].
  - intros E. injection E as <- <-. split; [exact S|]. split; [exact Qc|]. split; [apply grows_refl|]. intros ? ? ? [].
  - pose proof (HK c (or_introl eq_refl)) as L.
    assert (forall xn, (match dget str_eqb c el with Some ks => rec c ks x | None => Ret (x, []) end) = Ret xn -> sound (fst xn) /\ strictly p (snd xn) /\ grows x (fst xn)) as Hn.
    { intros (x1, l1) E. destruct (dget str_eqb c el) as [ks|] eqn:G.
      - destruct (R _ _ _ _ _ (EL _ _ G) S E) as (S1 & W1 & G1). split; [exact S1|]. split; [exact (weak_strict _ _ _ L W1)|exact G1].
      - injection E as <- <-. split; [exact S|]. split; [intros ? ? []|apply grows_refl]. }
    destruct (match dget str_eqb c el with Some ks => rec c ks x | None => Ret (x, []) end) as [xn|]; cbn [obind]; [|discriminate].
    destruct (Hn xn eq_refl) as (S1 & Q1 & G1). destruct (cat_pairs d c) as [own|] eqn:Ec; cbn [obind]; [|discriminate]. cbv zeta. intros E.
    assert (strictly p (extra ++ snd xn)) as Qe' by (intros o nm I; apply in_app_iff in I; destruct I; [now apply Qe|now apply Q1]).
    assert (strictly p (own ++ extra ++ snd xn)) as Qc' by (intros o nm I; apply in_app_iff in I; destruct I as [I|I]; [exact (pairs_strict p c own L Ec o nm I)|now apply Qe']).
    destruct (add_pairs_sound p (own ++ extra ++ snd xn) (fst xn) S1 Qc') as (S2 & G2 & P2).
    destruct (IH _ _ _ _ _ (fun k I => HK k (or_intror I)) S2 Qe' Qc' E) as (S3 & Q3 & G3 & P3).
    split; [exact S3|]. split; [exact Q3|]. split; [exact (grows_trans _ _ _ G1 (grows_trans _ _ _ G2 G3))|].
    intros c' o nm [<-|I] Hh Hn'; [|now apply (P3 c' o nm)]. apply G3, (P2 o nm); [|exact Hn']. apply in_app_iff. left. now apply (cat_pairs_ok d c own W Ec).
Qed.
Lemma expand_base_sound n : forall p kids x x' l, (forall k, In k kids -> loop_child d p k) -> sound x -> expand_base n d el p kids x = Ret (x', l) ->
  sound x' /\ weakly p l /\ grows x x' /\ forall c o nm, In c kids -> holds d c o nm -> (forall c' o', ~ holds d c' nm o') -> dget pair_eqb (p, o) x' <> None.
Proof.
  induction n as [|n IH]; intros p kids x x' l HK S; cbn [expand_base]; [discriminate|].
  destruct (each_child _ d el p kids [] [] x) as [(x1, l1)|] eqn:E1; cbn [obind fst snd]; [|discriminate].
  destruct (each_sound (expand_base n d el) p) with (kids := kids) (extra := @nil (str * str)) (cn := @nil (str * str)) (x := x) (x' := x1) (l := l1) as (S1 & Q1 & G1 & P1);
    [|exact HK|exact S|intros ? ? []|intros ? ? []|exact E1|].
  { intros c ks y y' m Hk Sy Ey. destruct (IH _ _ _ _ _ Hk Sy Ey) as (A & B & C & _). tauto. }
  destruct (append_repeats p _ x1) as [x2|] eqn:E2; cbn [obind]; [|discriminate].
  destruct (append_sound _ _ _ _ S1 (fun o nm I => Q1 o nm (proj1 (proj1 (filter_In _ _ _) I))) E2) as (S2 & G2).
  destruct (cat_pairs d p) as [own|] eqn:Ec; cbn [obind]; [|discriminate]. intros E. injection E as <- <-.
  split; [exact S2|]. split; [|split; [exact (grows_trans _ _ _ G1 G2)|]].
  - intros o nm I. apply in_app_iff in I. destruct I as [I|I].
    + destruct (Q1 o nm I) as (c & B & Hc). exists c. tauto.
    + exists p. split; [now left|]. now apply (cat_pairs_ok d p own W Ec).
  - intros c o nm I Hc Hn. now apply G2, (P1 c o nm).
Qed.
Lemma expand_all_sound n l : forall x x', (forall a ks, In (a, ks) l -> forall k, In k ks -> loop_child d a k) -> sound x -> expand_all n d el l x = Ret x' ->
  sound x' /\ grows x x' /\ forall p ks c o nm, In (p, ks) l -> In c ks -> holds d c o nm -> (forall c' o', ~ holds d c' nm o') -> dget pair_eqb (p, o) x' <> None.
Proof.
  induction l as [|(p, kids) r IH]; intros x x' HL S; cbn [expand_all].
  - intros E. injection E as <-. split; [exact S|]. split; [apply grows_refl|]. intros ? ? ? ? ? [].
  - destruct (expand_base n d el p kids x) as [(x1, l1)|] eqn:E1; cbn [obind fst]; [|discriminate]. intros E.
    destruct (expand_base_sound _ _ _ _ _ _ (HL p kids (or_introl eq_refl)) S E1) as (S1 & _ & G1 & P1).
    destruct (IH _ _ (fun a ks I => HL a ks (or_intror I)) S1 E) as (S2 & G2 & P2). split; [exact S2|]. split; [exact (grows_trans _ _ _ G1 G2)|].
    intros q ks c o nm [I|I] Ic Hc Hn; [injection I as <- <-; now apply G2, (P1 c o nm)|now apply (P2 q ks c o nm)].
Qed.
End obj.

(** ** The items' own objects *)
Lemma lower_text_reads name t : forall c, lower_text name t = Ret c -> exists s, reads name t s /\ lower s = c.
Proof.
  unfold lower_text, reads. intros c. destruct (tget name t) as [[s| | | | |]|]; try discriminate; intros E; injection E as <-; [exists s; auto|exists []; auto].
Qed.
Lemma reads_lower name t s : reads name t s -> lower_text name t = Ret (lower s).
Proof. unfold lower_text. intros [->|(-> & ->)]; reflexivity. Qed.
Lemma reads_unique name t s s' : reads name t s -> reads name t s' -> s = s'.
Proof. intros [A|(A & ->)] [B|(B & ->)]; rewrite A in B; try discriminate B; [now injection B|reflexivity]. Qed.
Lemma base_ok d : forall acc b, base_table d acc = Ret b -> forall c o,
  (forall ns, dget pair_eqb (c, o) b = Some ns -> (exists nm, ns = [nm] /\ owns d c o nm) \/ ((forall nm, ~ owns d c o nm) /\ dget pair_eqb (c, o) acc = Some ns))
  /\ (dget pair_eqb (c, o) b = None -> (forall nm, ~ owns d c o nm) /\ dget pair_eqb (c, o) acc = None).
Proof.
  induction d as [|(k, t) r IH]; intros acc b; cbn [base_table].
  - intros E. injection E as <-. intros c o. assert (forall nm, ~ owns [] c o nm) as N by (intros nm (? & ? & ? & ? & [] & _)). split; [intros ns E; right; now split|auto].
  - assert (forall c o nm, owns r c o nm -> owns ((k, t) :: r) c o nm) as Up.
    { intros c o nm (k' & t' & s & s' & I & K). exists k', t', s, s'. split; [now right|exact K]. }
    unfold is_item. destruct (match tget a_scope t with None => true | o => veq_text o (u "Item") end) eqn:F.
    + apply item_bool in F. destruct (lower_text a_category t) as [c0|] eqn:C0; cbn [obind]; [|discriminate].
      destruct (lower_text a_object t) as [o0|] eqn:O0; cbn [obind]; [|discriminate]. intros E.
      destruct (lower_text_reads _ _ _ C0) as (sc & Rc & <-), (lower_text_reads _ _ _ O0) as (so & Ro & <-).
      assert (exists i, reads a_def_id t i /\ base_table r (dset pair_eqb (lower sc, lower so) [i] acc) = Ret b) as (i & Ri & E').
      { unfold reads. destruct (tget a_def_id t) as [[i| | | | |]|]; try discriminate E; [exists i|exists []]; auto. }
      assert (owns ((k, t) :: r) (lower sc) (lower so) i) as Own by (exists k, t, sc, so; split; [now left|]; split; [exact F|]; split; [exact Rc|]; split; [reflexivity|]; split; [exact Ro|]; split; [reflexivity|exact Ri]).
      assert (forall c o nm, owns ((k, t) :: r) c o nm -> owns r c o nm \/ (c = lower sc /\ o = lower so /\ nm = i)) as Down.
      { intros c o nm (k' & t' & s & s' & [I|I] & S1 & R1 & <- & R2 & <- & R3); [right|left; exists k', t', s, s'; tauto]. injection I as <- <-.
        split; [now rewrite (reads_unique _ _ _ _ R1 Rc)|]. split; [now rewrite (reads_unique _ _ _ _ R2 Ro)|exact (reads_unique _ _ _ _ R3 Ri)]. }
      intros c o. destruct (IH _ _ E' c o) as (A & B). rewrite oget_set in A, B. split.
      * intros ns G. destruct (A ns G) as [(nm & -> & O)|(N & K)]; [left; exists nm; split; [reflexivity|now apply Up]|].
        destruct (pair_eqb_spec (lower sc, lower so) (c, o)) as [Ep|Np].
        -- injection Ep as <- <-. injection K as <-. left. exists i. now split.
        -- right. split; [|exact K]. intros nm O. destruct (Down _ _ _ O) as [O'|(-> & -> & _)]; [now apply (N nm)|now apply Np].
      * intros G. destruct (B G) as (N & K). destruct (pair_eqb_spec (lower sc, lower so) (c, o)) as [Ep|Np]; [discriminate K|]. split; [|exact K].
        intros nm O. destruct (Down _ _ _ O) as [O'|(-> & -> & _)]; [now apply (N nm)|now apply Np].
    + intros E c o. destruct (IH _ _ E c o) as (A & B).
      assert (forall nm, owns ((k, t) :: r) c o nm -> owns r c o nm) as Down.
      { intros nm (k' & t' & s & s' & [I|I] & S1 & K); [|exists k', t', s, s'; tauto]. injection I as <- <-. apply item_bool in S1. congruence. }
      split.
      * intros ns G. destruct (A ns G) as [(nm & -> & O)|(N & K)]; [left; exists nm; split; [reflexivity|now apply Up]|right]. split; [|exact K]. intros nm O. now apply (N nm), Down.
      * intros G. destruct (B G) as (N & K). split; [|exact K]. intros nm O. now apply (N nm), Down.
Qed.
Lemma join_get base extra k : dget pair_eqb k (join_tables base extra) = match dget pair_eqb k base with
  | Some b => Some (b ++ match dget pair_eqb k extra with Some l => l | None => [] end)
  | None => dget pair_eqb k extra end.
Proof.
  unfold join_tables. set (f := fun kv : (str * str) * list str => (fst kv, snd kv ++ match dget pair_eqb (fst kv) extra with Some l => l | None => [] end)).
  assert (forall l, dget pair_eqb k (map f l ++ filter (fun kv => negb (dmem pair_eqb (fst kv) base)) extra) = match dget pair_eqb k l with
    | Some b => Some (b ++ match dget pair_eqb k extra with Some l => l | None => [] end)
    | None => dget pair_eqb k (filter (fun kv => negb (dmem pair_eqb (fst kv) base)) extra) end) as H.
  { induction l as [|(a, b) l IH]; [reflexivity|]. cbn [map app dget f fst snd]. destruct (pair_eqb_spec k a) as [->|N]; [reflexivity|exact IH]. }
  rewrite H. destruct (dget pair_eqb k base) eqn:B; [reflexivity|].
  induction extra as [|(a, b) x IH]; [reflexivity|]. cbn [filter fst]. clear IH.
  assert (forall y : objtable, dget pair_eqb k (filter (fun kv => negb (dmem pair_eqb (fst kv) base)) y) = dget pair_eqb k y) as F.
  { induction y as [|(a', b') y IH]; [reflexivity|]. cbn [filter fst dget]. destruct (pair_eqb_spec k a') as [<-|N].
    - rewrite omem_get, B. cbn [negb dget]. now destruct (pair_eqb_spec k k).
    - destruct (negb _); [cbn [dget]; destruct (pair_eqb_spec k a'); [congruence|exact IH]|exact IH]. }
  exact (F ((a, b) :: x)).
Qed.
