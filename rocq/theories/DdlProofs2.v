(** Loading DDL1 dictionaries: the attributes of definitions, the types and the
    categories. *)
From Coq Require Import String Ascii List NArith ZArith QArith PeanoNat Bool Lia.
From Verif Require Import PyBase PyFacts NumberSpec StarBlockModel LoopModel LoopProofs CollectionModel ValidateModel ValidateSpec
  TreeModel EditModel EditProofs EditProofs2 DdlModel DdlSpec DdlProofs.
Import ListNotations.
Open Scope nat_scope.

Lemma put_get a v t b : tget b (put a v t) = if str_eqb (lower b) (lower a) then Some v else tget b t.
Proof. apply tget_set. Qed.
Lemma dflt_get a v t b : tget b (dflt a v t) = if str_eqb (lower b) (lower a) then Some (given (tget a t) v) else tget b t.
Proof.
  unfold dflt, tmem. destruct (tget a t) as [w|] eqn:E; cbn [given].
  - destruct (str_eqb_spec (lower b) (lower a)) as [e|]; [|reflexivity]. unfold tget in *. rewrite e. exact E.
  - apply put_get.
Qed.
Ltac names := repeat match goal with |- context [str_eqb (lower ?a) (lower ?b)] =>
  let x := eval vm_compute in (str_eqb (lower a) (lower b)) in change (str_eqb (lower a) (lower b)) with x end; cbv iota.

(** The last underscore. *)
Lemma last_under_ok c pre post : ~ In 95%N post -> last_under (c :: pre ++ 95%N :: post) = Some (Datatypes.S (length pre)).
Proof.
  intros N. unfold last_under. cbn [rev]. rewrite rev_app_distr. cbn [rev]. rewrite <- !app_assoc. cbn [app].
  assert (forall l r, ~ In 95%N l -> index_of N.eqb 95%N (l ++ 95%N :: r) = Some (length l)) as H.
  { induction l as [|x l IH]; intros r Hl; cbn [app index_of length]; [reflexivity|]. destruct (N.eqb_spec 95 x) as [<-|]; [elim Hl; now left|].
    rewrite IH; [reflexivity|]. intros K. apply Hl. now right. }
  rewrite H; [|now rewrite <- in_rev]. rewrite rev_length. cbn [length]. rewrite app_length. cbn [length]. f_equal. lia.
Qed.
Lemma last_under_some s : In 95%N s -> exists n, last_under s = Some n.
Proof.
  intros H. unfold last_under. destruct (index_of N.eqb 95%N (rev s)) as [i|] eqn:E; [now eexists|]. exfalso. apply (index_of_None N.eqb N.eqb_spec) in E. apply E. now rewrite <- in_rev.
Qed.
Lemma cat_id_ok c pre post : ~ In 95%N post -> cat_id_of (VStr (c :: pre ++ 95%N :: post)) = Ret pre.
Proof.
  intros N. unfold cat_id_of. rewrite last_under_ok by exact N. cbn [firstn tl]. rewrite firstn_app, firstn_all, Nat.sub_diag. cbn [firstn]. now rewrite app_nil_r.
Qed.
Lemma overview_iff t : veq_text (tget n_category t) n_overview = true <-> overview t.
Proof.
  unfold overview, veq_text. destruct (tget n_category t) as [[s| | | | | ]|]; try (split; intros; discriminate).
  destruct (str_eqb_spec s n_overview) as [->|n]; split; intros H; try reflexivity; try discriminate. injection H as ->. now elim n.
Qed.

(** What a definition adds to the lists. *)
Inductive adds : table -> found -> found -> Prop :=
| ad_step t f con cat codes cons prims cats :
    (tget n_construct t = None -> con = []) ->
    (forall c s p, tget n_construct t = Some (VStr c) -> tget n_name t = Some (VStr s) -> tget n_type t = Some p -> con = [(s ++ u "_type", c ++ u "$", p)]) ->
    codes = map (fun r : str * str * value => VStr (fst (fst r))) con -> cons = map (fun r : str * str * value => VStr (snd (fst r))) con -> prims = map snd con ->
    (~ overview t -> cat = []) ->
    (overview t -> exists id s, tget n_name t = Some (VStr s) /\ cat_id_of (VStr s) = Ret id /\ cat = if vmem (VStr id) (f_cats f) then [] else [id]) ->
    cats = map VStr cat ->
    adds t f (Found (f_codes f ++ codes) (f_constructs f ++ cons) (f_prims f ++ prims) (f_cats f ++ cats)).
Lemma found_nil f : f = Found (f_codes f ++ []) (f_constructs f ++ []) (f_prims f ++ []) (f_cats f ++ []).
Proof. destruct f. cbn. now rewrite !app_nil_r. Qed.

Theorem normal_one_ok t f : usable t -> exists t' f', normal_one t f = Ret (t', f') /\ normalised t t' /\ adds t f f'.
Proof.
  intros [Hr Ht Hc]. unfold normal_one.
  set (t0 := dflt n_conditions (VStr (u "none")) (dflt n_list (VStr (u "no")) t)).
  assert (forall b, tget b t0 = if str_eqb (lower b) n_conditions then Some (given (tget n_conditions t) (VStr (u "none")))
                                else if str_eqb (lower b) n_list then Some (given (tget n_list t) (VStr (u "no"))) else tget b t) as G0.
  { intros b. unfold t0. rewrite dflt_get. change (lower n_conditions) with n_conditions. destruct (str_eqb (lower b) n_conditions).
    - rewrite dflt_get. names. reflexivity.
    - apply dflt_get. }
  clearbody t0.
  (* the range *)
  assert (exists t1, add_range t0 = Ret t1 /\ (forall b, str_eqb (lower b) range_min = false -> str_eqb (lower b) range_max = false -> tget b t1 = tget b t0)
    /\ (tget n_range t = None -> t1 = t0)
    /\ (forall lo up, readable_end lo -> readable_end up -> tget n_range t = Some (VStr (range_text lo up)) ->
         tget range_min t1 = Some (VList (snd (range_lists lo up))) /\ tget range_max t1 = Some (VList (fst (range_lists lo up))))) as (t1 & E1 & G1 & N1 & R1).
  { assert (tget n_range t0 = tget n_range t) as Er by (rewrite G0; reflexivity).
    destruct Hr as [Hr|(lo & up & A & B & Hr)].
    - exists t0. unfold add_range. rewrite Er, Hr. repeat split; try reflexivity; rewrite Hr in *; discriminate.
    - exists (put range_min (VList (snd (range_lists lo up))) (put range_max (VList (fst (range_lists lo up))) t0)). rewrite <- Er in Hr.
      assert (add_range t0 = Ret (put range_min (VList (snd (range_lists lo up))) (put range_max (VList (fst (range_lists lo up))) t0))) as E by now apply add_range_ok.
      split; [exact E|]. split; [|split].
      + intros b X Y. rewrite !put_get. change (lower range_min) with range_min. change (lower range_max) with range_max. now rewrite X, Y.
      + intros K. rewrite Er in Hr. rewrite K in Hr. discriminate.
      + intros lo' up' A' B' K. rewrite <- Er in K. pose proof (add_range_ok t0 lo' up' A' B' K) as E'. rewrite E in E'. injection E' as E'.
        rewrite E'. rewrite !put_get. names. now split. }
  rewrite E1. cbn [obind].
  assert (forall b, In b [n_construct; n_name; n_type; n_category; n_cat_id] -> tget b t1 = tget b t) as G1'.
  { intros b Hb. rewrite G1, G0; cbn [In] in Hb; repeat (destruct Hb as [<-|Hb]; [reflexivity|]); destruct Hb. }
  (* the type *)
  assert (exists t2 con, add_type t1 f = Ret (t2, Found (f_codes f ++ map (fun r : str * str * value => VStr (fst (fst r))) con)
      (f_constructs f ++ map (fun r : str * str * value => VStr (snd (fst r))) con) (f_prims f ++ map snd con) (f_cats f))
    /\ (tget n_construct t = None -> con = [] /\ t2 = t1)
    /\ (forall c s p, tget n_construct t = Some (VStr c) -> tget n_name t = Some (VStr s) -> tget n_type t = Some p -> con = [(s ++ u "_type", c ++ u "$", p)])
    /\ (forall s, tget n_construct t <> None -> tget n_name t = Some (VStr s) -> tget n_type t2 = Some (VStr (s ++ u "_type")))
    /\ (forall b, str_eqb (lower b) n_type = false -> tget b t2 = tget b t1)) as (t2 & con & E2 & N2 & C2 & Y2 & G2).
  { unfold add_type. rewrite (G1' n_construct) by (now left). destruct Ht as [Ht|(s & c & p & H1 & H2 & H3)].
    - rewrite Ht. exists t1, []. split; [f_equal; f_equal; destruct f; cbn; now rewrite !app_nil_r|].
      split; [intros _; now split|]. split; [intros; discriminate|]. split; [intros s K; now elim K|]. reflexivity.
    - rewrite H1. unfold att_of. rewrite (G1' n_name) by (right; now left). rewrite (G1' n_type) by (right; right; now left). rewrite H2, H3. cbn [obind plus_text].
      exists (put n_type (VStr (s ++ u "_type")) t1), [(s ++ u "_type", c ++ u "$", p)]. cbn [map fst snd]. split; [reflexivity|].
      split; [intros K; discriminate|]. split; [intros c' s' p' K1 K2 K3; injection K1 as ->; injection K2 as ->; injection K3 as ->; reflexivity|].
      split; [intros s' _ K; injection K as ->; rewrite put_get; names; reflexivity|]. intros b Hb. rewrite put_get. change (lower n_type) with n_type. now rewrite Hb. }
  rewrite E2. cbn [obind fst snd].
  (* the category *)
  assert (tget n_category t2 = tget n_category t) as Gc by (rewrite G2 by reflexivity; apply G1'; cbn; tauto).
  assert (tget n_name t2 = tget n_name t) as Gn by (rewrite G2 by reflexivity; apply G1'; cbn; tauto).
  unfold add_cat. destruct (veq_text (tget n_category t2) n_overview) eqn:V.
  - assert (overview t) as O by (apply overview_iff; rewrite <- Gc; exact V). destruct (Hc O) as (s & Es & Us).
    destruct (last_under_some s Us) as (n & En). assert (exists id, cat_id_of (VStr s) = Ret id) as (id & Eid) by (cbn [cat_id_of]; rewrite En; now eexists).
    unfold att_of. rewrite Gn, Es. cbn [obind]. rewrite Eid. cbn [obind].
    eexists. eexists. split; [reflexivity|]. split.
    + assert (forall b, str_eqb (lower b) n_cat_id = false -> str_eqb (lower b) n_type = false -> str_eqb (lower b) range_min = false -> str_eqb (lower b) range_max = false ->
              tget b (put n_cat_id (VStr id) t2) = tget b t0) as Gb.
      { intros b B1 B2 B3 B4. rewrite put_get. change (lower n_cat_id) with n_cat_id. rewrite B1. rewrite G2 by exact B2. now apply G1. }
      split.
      * intros a Ha. cbn [In] in Ha. rewrite Gb, G0; [|rewrite ?(eqb_diff (lower a)); try reflexivity; intros K; symmetry in K; tauto ..].
        rewrite !(eqb_diff (lower a)); [reflexivity|intros K; symmetry in K; tauto|intros K; symmetry in K; tauto].
      * rewrite Gb by reflexivity. rewrite G0. reflexivity.
      * rewrite Gb by reflexivity. rewrite G0. reflexivity.
      * intros K. rewrite !put_get. names. rewrite !G2 by reflexivity. rewrite (N1 K). rewrite !G0. names. now split.
      * intros lo up A B Or K. destruct (R1 lo up A B K) as [R2 R3]. destruct (range_bounds lo up A B) as [B1 B2].
        exists (snd (range_lists lo up)), (fst (range_lists lo up)), (snd (bound_lists lo up)), (fst (bound_lists lo up)).
        rewrite !put_get. names. rewrite !G2 by reflexivity. split; [exact R2|]. split; [exact R3|]. split; [exact B1|]. split; [exact B2|].
        intros x. rewrite range_inside. split; [|now left]. intros [H|(a & b & -> & -> & L & _)]; [exact H|]. exfalso. apply (Qlt_not_le _ _ L). now apply Or.
      * intros K. rewrite put_get. names. destruct (N2 K) as [_ ->]. apply G1'. cbn. tauto.
      * intros s' K1 K2. rewrite put_get. names. now apply Y2.
      * intros K. now elim K.
      * intros _ c pre post K1 K2. rewrite put_get. names. rewrite Es in K1. injection K1 as ->. rewrite cat_id_ok in Eid by exact K2. injection Eid as ->. reflexivity.
    + cbn [f_codes f_constructs f_prims f_cats].
      assert (adds t f (Found (f_codes f ++ map (fun r : str * str * value => VStr (fst (fst r))) con) (f_constructs f ++ map (fun r : str * str * value => VStr (snd (fst r))) con) (f_prims f ++ map snd con)
        (f_cats f ++ map VStr (if vmem (VStr id) (f_cats f) then [] else [id])))) as Ad.
      { eapply ad_step with (con := con) (cat := if vmem (VStr id) (f_cats f) then [] else [id]); try reflexivity.
        - intros K. now apply N2.
        - exact C2.
        - intros K. now elim K.
        - intros _. exists id, s. repeat split; assumption. }
      destruct (vmem (VStr id) (f_cats f)); [|exact Ad]. cbn [map] in Ad. rewrite app_nil_r in Ad. exact Ad.
  - assert (~ overview t) as O by (intros K; apply overview_iff in K; rewrite <- Gc in K; congruence).
    eexists. eexists. split; [reflexivity|]. split.
    + assert (forall b, str_eqb (lower b) n_type = false -> str_eqb (lower b) range_min = false -> str_eqb (lower b) range_max = false -> tget b t2 = tget b t0) as Gb.
      { intros b B2 B3 B4. rewrite G2 by exact B2. now apply G1. }
      split.
      * intros a Ha. cbn [In] in Ha. rewrite Gb, G0; [|rewrite ?(eqb_diff (lower a)); try reflexivity; intros K; symmetry in K; tauto ..].
        rewrite !(eqb_diff (lower a)); [reflexivity|intros K; symmetry in K; tauto|intros K; symmetry in K; tauto].
      * rewrite Gb by reflexivity. rewrite G0. reflexivity.
      * rewrite Gb by reflexivity. rewrite G0. reflexivity.
      * intros K. rewrite !G2 by reflexivity. rewrite (N1 K). rewrite !G0. names. now split.
      * intros lo up A B Or K. destruct (R1 lo up A B K) as [R2 R3]. destruct (range_bounds lo up A B) as [B1 B2].
        exists (snd (range_lists lo up)), (fst (range_lists lo up)), (snd (bound_lists lo up)), (fst (bound_lists lo up)).
        rewrite !G2 by reflexivity. split; [exact R2|]. split; [exact R3|]. split; [exact B1|]. split; [exact B2|].
        intros x. rewrite range_inside. split; [|now left]. intros [H|(a & b & -> & -> & L & _)]; [exact H|]. exfalso. apply (Qlt_not_le _ _ L). now apply Or.
      * intros K. destruct (N2 K) as [_ ->]. apply G1'. cbn. tauto.
      * intros s' K1 K2. now apply Y2.
      * intros _. rewrite G2 by reflexivity. apply G1'. cbn. tauto.
      * intros K. now elim O.
    + assert (adds t f (Found (f_codes f ++ map (fun r : str * str * value => VStr (fst (fst r))) con) (f_constructs f ++ map (fun r : str * str * value => VStr (snd (fst r))) con) (f_prims f ++ map snd con)
        (f_cats f ++ map VStr []))) as Ad.
      { eapply ad_step with (con := con) (cat := []); try reflexivity.
        - intros K. now apply N2.
        - exact C2.
        - intros K. now elim O. }
      cbn [map] in Ad. rewrite app_nil_r in Ad. exact Ad.
Qed.

(** ** All definitions *)
Lemma adds_types k t ov d f f' rows : adds t f f' -> own_types ((k, (t, ov)) :: d) rows ->
  exists r1 r2, rows = r1 ++ r2 /\ own_types d r2 /\ f_codes f' = f_codes f ++ type_codes r1 /\ f_constructs f' = f_constructs f ++ type_constructs r1 /\ f_prims f' = f_prims f ++ type_prims r1.
Proof.
  intros A O. destruct A as [t f con cat codes cons prims cats A1 A2 -> -> -> _ _ _]. cbn [f_codes f_constructs f_prims].
  inversion O as [|k' t' ov' d' rows' E H|k' t' ov' d' rows' s c p E1 E2 E3 H]; subst.
  - exists [], rows. rewrite (A1 E). now repeat split.
  - exists [(s ++ u "_type", c ++ u "$", p)], rows'. rewrite (A2 c s p E1 E2 E3). now repeat split.
Qed.
Lemma adds_cats k t ov d f f' seen ids new : adds t f f' -> f_cats f = map VStr seen -> overviews ((k, (t, ov)) :: d) ids -> missing seen ids new ->
  exists s2 ids2 new2, f_cats f' = map VStr (seen ++ s2) /\ overviews d ids2 /\ missing (seen ++ s2) ids2 new2 /\ new = s2 ++ new2.
Proof.
  intros A F O M. destruct A as [t f con cat codes cons prims cats _ _ _ _ _ A1 A2 ->]. cbn [f_cats].
  inversion O as [|k' t' ov' d' l E H|k' t' ov' d' l c pre post E1 E2 E3 H]; subst.
  - exists [], ids, new. rewrite (A1 E). cbn [map]. rewrite !app_nil_r. now repeat split.
  - destruct (A2 E1) as (id & s & B1 & B2 & B3). rewrite E2 in B1. injection B1 as <-. rewrite cat_id_ok in B2 by exact E3. injection B2 as <-.
    rewrite F in *. destruct (vmem (VStr pre) (map VStr seen)) eqn:V.
    + apply vmem_texts in V. inversion M as [|? ? ? ? I M'|? ? ? ? I M']; subst; [|contradiction]. exists [], l, new. cbn [map]. rewrite !app_nil_r. now repeat split.
    + assert (~ In pre seen) as Nv by (intros K; apply vmem_texts in K; congruence). inversion M as [|? ? ? ? I M'|? ? ? ? I M']; subst; [contradiction|].
      exists [pre], l, r. rewrite map_app. now repeat split.
Qed.
Theorem normal_all_ok : forall d f seen rows ids new, Forall (fun x : str * entry => usable (fst (snd x))) d -> own_types d rows -> overviews d ids -> f_cats f = map VStr seen -> missing seen ids new ->
  exists d', normal_all d f = Ret (d', Found (f_codes f ++ type_codes rows) (f_constructs f ++ type_constructs rows) (f_prims f ++ type_prims rows) (map VStr (seen ++ new)))
    /\ Forall2 same_place d d'.
Proof.
  induction d as [|[k [t ov]] d IH]; intros f seen rows ids new U T O F M.
  - exists []. inversion T. inversion O; subst. inversion M; subst. cbn [normal_all type_codes type_constructs type_prims map]. rewrite !app_nil_r, <- F. split; [now destruct f|constructor].
  - destruct (normal_one_ok t f (Forall_inv U)) as (t' & f1 & E & N & A).
    destruct (adds_types k t ov d f f1 rows A T) as (r1 & r2 & -> & T2 & C1 & C2 & C3).
    destruct (adds_cats k t ov d f f1 seen ids new A F O M) as (s2 & ids2 & new2 & F2 & O2 & M2 & ->).
    destruct (IH f1 (seen ++ s2) r2 ids2 new2 (Forall_inv_tail U) T2 O2 F2 M2) as (d' & E' & P).
    exists ((k, (t', ov)) :: d'). cbn [normal_all]. rewrite E. cbn [obind fst snd]. rewrite E'. cbn [obind fst snd]. split.
    + rewrite C1, C2, C3. unfold type_codes, type_constructs, type_prims. rewrite !map_app, !app_assoc. reflexivity.
    + constructor; [|exact P]. split; [reflexivity|]. split; [reflexivity|exact N].
Qed.

(** ** Categories without a definition *)
Lemma fake_made c : fake_name c = 95%N :: c ++ [95; 91; 93]%N.
Proof. reflexivity. Qed.
Lemma made_plain c : ~ In 32%N c -> ~ In 9%N c -> length c <= 71 -> plain_name (fake_name c).
Proof.
  intros A B L. rewrite fake_made. split; [|split].
  - intros [K|K]; [discriminate|]. apply in_app_or in K as [K|K]; [tauto|]. cbn in K. intuition discriminate.
  - intros [K|K]; [discriminate|]. apply in_app_or in K as [K|K]; [tauto|]. cbn in K. intuition discriminate.
  - cbn [length]. rewrite app_length. cbn [length]. lia.
Qed.
Lemma dget_app1 {V} k (a b : list (str * V)) v : dget str_eqb k a = Some v -> dget str_eqb k (a ++ b) = Some v.
Proof. induction a as [|[x w] a IH]; cbn [dget app]; [discriminate|]. destruct (str_eqb k x); auto. Qed.
Lemma rogue_go : forall rest d0 extra seen used new,
  NoDup (map fst d0) -> (forall k, In k (map fst d0) -> lower k = k) -> (forall x, In x rest -> In x d0) ->
  categories rest used -> missing seen used new -> Forall (fun c => plain_name (fake_name c)) new ->
  NoDup (map fst (d0 ++ extra) ++ map made_name new) ->
  rogue_all (map fst rest) (d0 ++ extra) (map VStr seen)
  = Ret (d0 ++ extra ++ map (fun c => (made_name c, made_def c)) new, map VStr (seen ++ new)).
Proof.
  induction rest as [|[k [t ov]] rest IH]; intros d0 extra seen used new N L I C M P F.
  - inversion C; subst. inversion M; subst. cbn [map rogue_all]. now rewrite !app_nil_r.
  - cbn [map fst rogue_all].
    assert (In (k, (t, ov)) d0) as Ik by (apply I; now left).
    assert (In k (map fst d0)) as Kk by (change k with (fst (k, (t, ov))); now apply in_map).
    rewrite (L k Kk). rewrite (dget_app1 k d0 extra (t, ov)) by (now apply dget_in).
    inversion C as [|? ? ? ? ? E C'|? ? ? ? ? c E C']; subst; rewrite E.
    + apply IH with (used := used); try assumption. intros x Hx. apply I. now right.
    + inversion M as [|? ? ? ? S1 M'|? ? ? r S1 M']; subst.
      * assert (vmem (VStr c) (map VStr seen) = true) as -> by (now apply vmem_texts). apply IH with (used := l); try assumption. intros x Hx. apply I. now right.
      * destruct (vmem (VStr c) (map VStr seen)) eqn:V; [apply vmem_texts in V; contradiction|].
        assert (lower (fake_name c) = made_name c) as Em by reflexivity.
        assert (NoDup (map fst (d0 ++ extra ++ [(made_name c, made_def c)]) ++ map made_name r)) as F'.
        { cbn [map] in F. rewrite app_assoc, map_app. cbn [map fst]. rewrite <- app_assoc. exact F. }
        rewrite (put_ok (fake_name c) (fake_def c) (d0 ++ extra) (Forall_inv P)).
        2:{ rewrite Em. cbn [map] in F. apply NoDup_remove_2 in F. intros K. apply F. apply in_or_app. now left. }
        cbn [obind]. rewrite <- app_assoc. rewrite Em. change (fake_def c) with (made_def c).
        replace (map VStr seen ++ [VStr c]) with (map VStr (seen ++ [c])) by (now rewrite map_app).
        etransitivity; [apply (IH d0 (extra ++ [(made_name c, made_def c)]) (seen ++ [c]) l r); try assumption|].
        -- intros x Hx. apply I. now right.
        -- exact (Forall_inv_tail P).
        -- cbn [map]. rewrite <- !app_assoc. reflexivity.
Qed.
Theorem rogue_ok d seen used new : NoDup (map fst d ++ map made_name new) -> (forall k, In k (map fst d) -> lower k = k) -> categories d used -> missing seen used new ->
  Forall (fun c => ~ In 32%N c /\ ~ In 9%N c /\ length c <= 71) new ->
  rogue_all (map fst d) d (map VStr seen) = Ret (d ++ map (fun c => (made_name c, made_def c)) new, map VStr (seen ++ new)).
Proof.
  intros N L C M P. pose proof (rogue_go d d [] seen used new) as H. rewrite app_nil_r in H. cbn [app] in H. apply H; try assumption.
  - apply NoDup_app_iff in N. tauto.
  - auto.
  - apply Forall_impl with (2 := P). intros c (A & B & X). now apply made_plain.
Qed.
Lemma missing_all seen l new : missing seen l new -> (forall c, In c l -> In c seen \/ In c new) /\ (forall c, In c new -> In c l /\ ~ In c seen) /\ NoDup new.
Proof.
  induction 1 as [seen|seen c l r I M (A & B & D)|seen c l r I M (A & B & D)].
  - repeat split; try tauto; try constructor; intros c [].
  - split; [|split]; auto.
    + intros x [<-|K]; auto.
    + intros x K. destruct (B x K). split; [now right|assumption].
  - split; [|split].
    + intros x [<-|K]; [right; now left|]. destruct (A x K) as [Hx|Hx]; [apply in_app_or in Hx as [Hx|[->|[]]]|]; [left|right; left|right; right]; auto.
    + intros x [<-|K]; [split; [now left|assumption]|]. destruct (B x K) as [B1 B2]. split; [now right|]. intros Z. apply B2. apply in_or_app. now left.
    + constructor; [|exact D]. intros K. destruct (B c K) as [_ Z]. apply Z. apply in_or_app. right. now left.
Qed.
