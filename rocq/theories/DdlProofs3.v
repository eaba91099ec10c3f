(** Loading DDL1 dictionaries: the table of definitions and what categories are told
    about their items. *)
From Coq Require Import String Ascii List NArith PeanoNat Bool Lia.
From Verif Require Import PyBase PyFacts StarBlockModel LoopModel LoopSpec LoopProofs CollectionModel ValidateModel ValidateProofs
  TreeModel EditModel EditProofs EditProofs2 DdlModel DdlSpec DdlProofs DdlProofs2.
Import ListNotations.
Open Scope nat_scope.

(** ** Finding definitions *)
Lemma ids_get d i b : well_listed d -> In (i, b) (k_ids d) -> dget str_eqb i (k_ids d) = Some b.
Proof. intros W H. apply dget_in; [apply W|exact H]. Qed.
Lemma find_id d x b : well_listed d -> In (lower x, b) (k_ids d) -> k_find x d = Ret b.
Proof.
  intros W H. unfold k_find. rewrite (ids_get d (lower x) b W H). destruct (wl_at d W _ _ H) as (_ & L & K). rewrite L.
  apply dmem_iff in K. now rewrite K.
Qed.
Lemma get_id d x e : well_listed d -> defines d (lower x) e -> k_get x d = Ret e.
Proof.
  intros W (b & H & K). unfold k_get. rewrite (find_id d x b W H). cbn [obind]. apply dget_in in K; [|apply W]. now rewrite K.
Qed.
Lemma defines_some d i : well_listed d -> In i (k_keys d) -> exists e, defines d i e.
Proof.
  intros W H. apply in_map_iff in H as ((i' & b) & E & H). cbn in E. subst i'. destruct (wl_at d W _ _ H) as (_ & _ & K).
  apply in_map_iff in K as ((b' & e) & E & K). cbn in E. subst b'. exists e, b. now split.
Qed.
Lemma set_id d x att v t ov : well_listed d -> defines d (lower x) (t, ov) -> tmem att t = false \/ ov = true ->
  exists d', k_set x att v d = (d', Ret tt) /\ well_listed d' /\ k_ids d' = k_ids d /\ map fst (k_blocks d') = map fst (k_blocks d)
    /\ (forall i e, defines d i e -> defines d' i (if str_eqb i (lower x) then (put att v t, ov) else e))
    /\ (forall b e, ~ In b (map snd (k_ids d)) -> In (b, e) (k_blocks d) -> In (b, e) (k_blocks d')).
Proof.
  intros W (b & H & K) A. unfold k_set. rewrite (find_id d x b W H).
  assert (dget str_eqb b (k_blocks d) = Some (t, ov)) as G by (apply dget_in; [apply W|exact K]). rewrite G.
  assert (tmem att t && negb ov = false) as -> by (destruct A as [->| ->]; [reflexivity|now rewrite andb_false_r]).
  assert (map fst (dset str_eqb b (put att v t, ov) (k_blocks d)) = map fst (k_blocks d)) as Km.
  { clear - G. revert G. induction (k_blocks d) as [|[y w] l IH]; cbn [dget dset map fst]; [discriminate|]. destruct (str_eqb_spec b y) as [->|]; [reflexivity|].
    intros G. cbn [map fst]. now rewrite IH. }
  eexists. split; [reflexivity|]. unfold set_blocks. cbn [k_ids k_blocks].
  assert (NoDup (map fst (dset str_eqb b (put att v t, ov) (k_blocks d)))) as Nd by (rewrite Km; apply W).
  split; [split; cbn [k_ids k_blocks]; try apply W|split; [reflexivity|split; [exact Km|split]]].
  - intros i b' Hi. destruct (wl_at d W i b' Hi) as (A1 & A2 & A3). split; [exact A1|]. split; [exact A2|]. exact (eq_ind_r (fun z => In b' z) A3 Km).
  - exact Nd.
  - intros i e (b2 & H2 & K2). exists b2. cbn [k_ids k_blocks]. split; [exact H2|]. apply dget_in; [exact Nd|].
    destruct (str_eqb_spec i (lower x)) as [->|n].
    + assert (b2 = b) as -> by (pose proof (ids_get _ _ _ W H); pose proof (ids_get _ _ _ W H2); congruence). apply dget_dset_eq, str_eqb_spec.
    + rewrite dget_dset_neq; [apply dget_in; [apply W|exact K2]|apply str_eqb_spec|].
      intros ->. apply n. pose proof (wl_keys d W) as Nk. clear - H H2 Nk. induction (k_ids d) as [|[p q] l IH]; [destruct H|].
      cbn [map snd] in Nk. inversion Nk as [|? ? N1 N2]; subst. destruct H as [H|H]; destruct H2 as [H2|H2].
      * congruence.
      * injection H as -> ->. elim N1. change b with (snd (i, b)). now apply in_map.
      * injection H2 as -> ->. elim N1. change b with (snd (lower x, b)). now apply in_map.
      * auto.
  - intros b' e Hb Hin. apply dget_in; [exact Nd|]. rewrite dget_dset_neq; [apply dget_in; [apply W|exact Hin]|apply str_eqb_spec|].
    intros ->. apply Hb. change b with (snd (lower x, b)). now apply in_map.
Qed.

(** ** The table of definitions *)
Lemma known_id cs ds x i : known_as cs ds x i -> id_of cs ds (fst x) (fst (snd x)) = VStr i.
Proof. intros H. destruct H as [k t ov i E|k t ov i E1 E2|k t ov E1 E2]; cbn [fst snd]; unfold id_of; [now rewrite E|now rewrite E1, E2|now rewrite E1, E2]. Qed.
Lemma no_unhashable l : existsb unhashable (map VStr l) = false.
Proof. induction l; [reflexivity|exact IHl]. Qed.
Lemma repeats_texts l : repeats (map VStr l) = false <-> NoDup l.
Proof.
  induction l as [|x l IH]; cbn [map repeats]; [split; [constructor|reflexivity]|]. rewrite orb_false_iff, IH. split.
  - intros [A B]. constructor; [|exact B]. intros K. apply vmem_texts in K. congruence.
  - intros H. inversion H as [|? ? H1 H2]; subst. split; [|exact H2]. destruct (vmem (VStr x) (map VStr l)) eqn:E; [apply vmem_texts in E; contradiction|reflexivity].
Qed.
Lemma dset_new {V} k (v : V) l : ~ In k (map fst l) -> dset str_eqb k v l = l ++ [(k, v)].
Proof.
  induction l as [|[x w] l IH]; cbn [dset map fst app]; intros H; [reflexivity|]. destruct (str_eqb_spec k x) as [->|n]; [elim H; now left|].
  rewrite IH; [reflexivity|]. intros K. apply H. now right.
Qed.
(** What the table holds: the definitions outside the top blocks. *)
Fixpoint listing (tops : list str) (d : defs) (ids : list str) : list (str * str) :=
  match d, ids with
  | (k, _) :: d', i :: ids' => if smem k tops then listing tops d' ids' else (lower i, k) :: listing tops d' ids'
  | _, _ => []
  end.
Lemma id_table_ok tops : forall (d : defs) ids acc, length d = length ids -> (forall k, In k (map fst d) -> lower k = k) ->
  NoDup (map fst acc ++ map fst (listing tops d ids)) ->
  id_table tops (combine (map VStr ids) (map fst d)) acc = Ret (acc ++ listing tops d ids).
Proof.
  induction d as [|[k e] d IH]; intros [|i ids] acc Len L N; try discriminate; cbn [map fst combine id_table listing].
  - now rewrite app_nil_r.
  - rewrite (L k) by (now left). cbn [listing map fst] in N. destruct (smem k tops).
    + apply IH; [now injection Len|intros x Hx; apply L; now right|exact N].
    + cbn [map fst] in N. rewrite dset_new by (apply NoDup_remove_2 in N; intros K; apply N; apply in_or_app; now left).
      rewrite IH; [now rewrite <- app_assoc|now injection Len|intros x Hx; apply L; now right|]. rewrite map_app. cbn [map fst]. now rewrite <- app_assoc.
Qed.
Lemma Forall2_known cs ds : forall d ids, Forall2 (known_as cs ds) d ids ->
  map (fun ke : str * entry => (id_of cs ds (fst ke) (fst (snd ke)), fst ke)) d = combine (map VStr ids) (map fst d) /\ length d = length ids.
Proof.
  induction d as [|x d IH]; intros ids H; inversion H as [|? i ? ids' K H']; subst; [now split|]. destruct (IH ids' H') as [A B].
  cbn [map combine length]. rewrite A, B, (known_id cs ds x i K). now split.
Qed.
Lemma fst_combine {A B} : forall (a : list A) (b : list B), length a = length b -> map fst (combine a b) = a.
Proof. induction a as [|x a IH]; intros [|y b] H; try discriminate; [reflexivity|]. cbn. now rewrite IH by now injection H. Qed.
Theorem table_made cs ds tops d ids : Forall2 (known_as cs ds) d ids -> NoDup ids -> (forall k, In k (map fst d) -> lower k = k) ->
  NoDup (map fst (listing tops d ids)) -> def_block_table cs ds tops d = Ret (listing tops d ids).
Proof.
  intros F N L Nl. destruct (Forall2_known cs ds d ids F) as [A B]. 
  assert (def_block_table cs ds tops d = let proto := combine (map VStr ids) (map fst d) in
    if existsb unhashable (map fst proto) then Raise TypeErr else if repeats (map fst proto) then Raise CifErr else id_table tops proto []) as ->
    by (rewrite <- A; reflexivity). cbv zeta.
  rewrite fst_combine by (now rewrite !map_length). rewrite no_unhashable. apply repeats_texts in N. rewrite N. now apply (id_table_ok tops d ids []).
Qed.
Lemma listing_in tops : forall d ids i b, In (i, b) (listing tops d ids) -> exists i0, In i0 ids /\ i = lower i0 /\ In b (map fst d) /\ ~ In b tops.
Proof.
  induction d as [|[k e] d IH]; intros [|i0 ids] i b H; try destruct H; cbn [listing] in H. destruct (smem k tops) eqn:E.
  - destruct (IH _ _ _ H) as (j & J1 & J2 & J3 & J4). exists j. repeat split; try assumption; now right.
  - destruct H as [H|H].
    + injection H as <- <-. exists i0. repeat split; try (now left). apply (mem_false str_eqb str_eqb_spec). exact E.
    + destruct (IH _ _ _ H) as (j & J1 & J2 & J3 & J4). exists j. repeat split; try assumption; now right.
Qed.
Lemma listing_keys tops : forall d ids, NoDup (map fst d) -> NoDup (map snd (listing tops d ids)).
Proof.
  induction d as [|[k e] d IH]; intros [|i0 ids] N; cbn [listing map]; try constructor. cbn [map fst] in N. inversion N as [|? ? N1 N2]; subst.
  destruct (smem k tops); [now apply IH|]. cbn [map snd]. constructor; [|now apply IH]. intros K. apply in_map_iff in K as ((i & b) & E & K). cbn in E. subst b.
  apply listing_in in K as (_ & _ & _ & K & _). contradiction.
Qed.
Lemma listing_good tops d ids : NoDup (map fst d) -> (forall k, In k (map fst d) -> lower k = k) -> NoDup (map fst (listing tops d ids)) ->
  well_listed (DDic d [] (listing tops d ids) []).
Proof.
  intros N L Nl. split; cbn [k_ids k_blocks]; try assumption.
  - intros i b H. apply listing_in in H as (i0 & _ & -> & K & _). split; [apply lower_idem|]. split; [now apply L|exact K].
  - now apply listing_keys.
Qed.

(** ** What categories are told *)
Definition lift (M : list (str * list str)) : per_cat := map (fun cl => (VStr (fst cl), map VStr (snd cl))) M.
Definition sget (c : str) (M : list (str * list str)) : list str := match dget str_eqb c M with Some l => l | None => [] end.
Lemma lift_get c M : dget py_eq (VStr c) (lift M) = option_map (map VStr) (dget str_eqb c M).
Proof. induction M as [|[x l] M IH]; [reflexivity|]. cbn [lift map dget fst snd]. change (py_eq (VStr c) (VStr x)) with (str_eqb c x). destruct (str_eqb c x); [reflexivity|exact IH]. Qed.
Lemma lift_cat c M : cat_get (VStr c) (lift M) = map VStr (sget c M).
Proof. unfold cat_get, sget. rewrite lift_get. now destruct (dget str_eqb c M). Qed.
Lemma lift_set c l M : dset py_eq (VStr c) (map VStr l) (lift M) = lift (dset str_eqb c l M).
Proof.
  induction M as [|[x k] M IH]; [reflexivity|]. cbn [lift map dset fst snd]. change (py_eq (VStr c) (VStr x)) with (str_eqb c x).
  destruct (str_eqb c x); [reflexivity|]. cbn [map fst snd]. f_equal. exact IH.
Qed.
Lemma sget_set c l M x : sget x (dset str_eqb c l M) = if str_eqb x c then l else sget x M.
Proof.
  unfold sget. destruct (str_eqb_spec x c) as [->|n]; [rewrite dget_dset_eq by apply str_eqb_spec; reflexivity|].
  now rewrite dget_dset_neq by (auto using str_eqb_spec).
Qed.
Definition sadd (s : str) (l : list str) : list str := if smem s l then l else l ++ [s].
Lemma add_new_texts s l : add_new (VStr s) (map VStr l) = map VStr (sadd s l).
Proof.
  unfold add_new, sadd. destruct (smem s l) eqn:E.
  - apply (mem_In str_eqb str_eqb_spec) in E. apply vmem_texts in E. now rewrite E.
  - destruct (vmem (VStr s) (map VStr l)) eqn:V; [|now rewrite map_app]. apply vmem_texts in V. apply (mem_In str_eqb str_eqb_spec) in V. unfold smem in E. congruence.
Qed.
Lemma sadd_missing s seen l new : missing (sadd s seen) l new -> exists r, missing seen (s :: l) (r ++ new) /\ sadd s seen = seen ++ r.
Proof.
  unfold sadd. destruct (smem s seen) eqn:E; intros M.
  - exists []. rewrite app_nil_r. split; [|reflexivity]. apply ms_old; [|exact M]. now apply (mem_In str_eqb str_eqb_spec).
  - exists [s]. split; [|reflexivity]. cbn [app]. apply ms_new; [|exact M]. now apply (mem_false str_eqb str_eqb_spec).
Qed.
Lemma missing_fun seen l : forall a b, missing seen l a -> missing seen l b -> a = b.
Proof.
  intros a b A. revert b. induction A as [seen|seen c l r I A IH|seen c l r I A IH]; intros b B; inversion B; subst; try contradiction; auto. f_equal. auto.
Qed.

(** Filled lists only. *)
Definition filled (M : list (str * list str)) : Prop := NoDup (map fst M) /\ forall c l, In (c, l) M -> l <> [].
Lemma filled_set c l M : filled M -> l <> [] -> filled (dset str_eqb c l M).
Proof.
  intros [N F] L. split; [now apply keys_dset_nodup|]. intros x k H. 
  pose proof (keys_dset_nodup c l M N) as N2. apply (dget_in x k _ N2) in H. destruct (str_eqb_spec x c) as [->|n].
  - rewrite dget_dset_eq in H by apply str_eqb_spec. now injection H as <-.
  - rewrite dget_dset_neq in H by (auto using str_eqb_spec). apply dget_in in H; [|exact N]. now apply (F x).
Qed.
Lemma veq_some o c : veq_text o c = true -> o = Some (VStr c).
Proof. intros W. unfold veq_text in W. destruct o as [[y| | | | | ]|]; try discriminate. destruct (str_eqb_spec y c) as [e|]; [now rewrite e|discriminate]. Qed.
Lemma cat_info_ok i t M1 M2 : telling t -> filled M1 -> filled M2 ->
  exists N1 N2, cat_info i t (lift M1, lift M2) = Ret (lift N1, lift N2) /\ filled N1 /\ filled N2
    /\ (forall c, sget c N1 = sget c M1 ++ (if andb (veq_text (tget n_mandatory t) (u "yes")) (veq_text (tget n_category t) c) then [i] else []))
    /\ (forall c, sget c N2 = match tget n_unique t with Some (VStr s) => if veq_text (tget n_category t) c then sadd s (sadd i (sget c M2)) else sget c M2 | _ => sget c M2 end).
Proof.
  intros [T1 T2] F1 F2. unfold cat_info. cbn [fst snd].
  assert (exists N1, (if veq_text (tget n_mandatory t) (u "yes") then obind (obind (att_of n_category t) (fun c => if unhashable c then Raise TypeErr else Ret c)) (fun c => Ret (dset py_eq c (cat_get c (lift M1) ++ [VStr i]) (lift M1))) else Ret (lift M1)) = Ret (lift N1)
    /\ filled N1 /\ (forall c, sget c N1 = sget c M1 ++ (if andb (veq_text (tget n_mandatory t) (u "yes")) (veq_text (tget n_category t) c) then [i] else []))) as (N1 & E1 & G1 & H1).
  { destruct (veq_text (tget n_mandatory t) (u "yes")) eqn:V; cbn [andb].
    - destruct T1 as (c & Ec). { left. now apply veq_some. }
      unfold att_of. rewrite Ec. cbn [obind unhashable]. rewrite lift_cat. change [VStr i] with (map VStr [i]). rewrite <- map_app, lift_set.
      eexists. split; [reflexivity|]. split; [apply filled_set; [exact F1|]; now destruct (sget c M1)|].
      intros x. rewrite sget_set. cbn [veq_text]. destruct (str_eqb_spec x c) as [->|n]; [now rewrite eqb_same|]. rewrite eqb_diff by congruence. now rewrite app_nil_r.
    - exists M1. split; [reflexivity|]. split; [exact F1|]. intros x. now rewrite app_nil_r. }
  exists N1. rewrite E1. cbn [obind]. destruct T2 as [T2|(s & T2)].
  - rewrite T2. exists M2. split; [reflexivity|]. split; [exact G1|]. split; [exact F2|]. split; [exact H1|]. reflexivity.
  - destruct T1 as (c & Ec); [right; now rewrite T2|]. rewrite T2. unfold att_of. rewrite Ec. cbn [obind unhashable].
    rewrite lift_cat, !add_new_texts, lift_set. eexists. split; [reflexivity|]. split; [exact G1|]. split; [apply filled_set; [exact F2|]|split; [intros x; rewrite <- Ec; apply H1|]].
    + unfold sadd. destruct (smem i (sget c M2)) eqn:E; [apply (mem_In str_eqb str_eqb_spec) in E; destruct (sget c M2); [destruct E|destruct (smem s _); discriminate]|].
      destruct (smem s (sget c M2 ++ [i])); destruct (sget c M2); discriminate.
    + intros x. rewrite sget_set. cbn [veq_text]. destruct (str_eqb_spec x c) as [->|n]; [now rewrite eqb_same|]. rewrite eqb_diff by congruence. reflexivity.
Qed.
Lemma needed_step c i t L l : needed c ((i, t) :: L) l -> exists r, needed c L r /\ l = (if andb (veq_text (tget n_mandatory t) (u "yes")) (veq_text (tget n_category t) c) then [i] else []) ++ r.
Proof.
  intros H. inversion H as [|? ? ? r A B K|? ? ? ? A K]; subst.
  - exists r. split; [exact K|]. rewrite A, B. cbn [veq_text]. rewrite !eqb_same. reflexivity.
  - exists l. split; [exact K|]. destruct (veq_text (tget n_mandatory t) (u "yes")) eqn:V; [|reflexivity]. destruct (veq_text (tget n_category t) c) eqn:W; [|reflexivity]. exfalso.
    apply veq_some in V. apply veq_some in W. destruct A as [A|A]; now apply A.
Qed.
Lemma unique_step c i t L l seen new : (tget n_unique t = None \/ exists s, tget n_unique t = Some (VStr s)) -> unique_of c ((i, t) :: L) l -> missing seen l new ->
  exists l2 new1 new2, unique_of c L l2 /\ new = new1 ++ new2 /\ missing (seen ++ new1) l2 new2
   /\ seen ++ new1 = match tget n_unique t with Some (VStr s) => if veq_text (tget n_category t) c then sadd s (sadd i seen) else seen | _ => seen end.
Proof.
  intros U H M. inversion H as [|? ? ? r s A B K|? ? ? ? A K]; subst.
  - rewrite A, B. cbn [veq_text]. rewrite eqb_same.
    assert (forall x sn k nw, missing sn (x :: k) nw -> exists n1 n2, nw = n1 ++ n2 /\ sadd x sn = sn ++ n1 /\ missing (sn ++ n1) k n2) as St.
    { intros x sn k nw Mx. unfold sadd. inversion Mx as [|? ? ? ? I Mx'|? ? ? r' I Mx']; subst.
      - exists [], nw. apply (mem_In str_eqb str_eqb_spec) in I. unfold smem. rewrite I, app_nil_r. now repeat split.
      - exists [x], r'. apply (mem_false str_eqb str_eqb_spec) in I. unfold smem. rewrite I. now repeat split. }
    destruct (St _ _ _ _ M) as (n1 & n2 & -> & E1 & M1). destruct (St _ _ _ _ M1) as (n3 & n4 & -> & E2 & M2).
    exists r, (n1 ++ n3), n4. split; [exact K|]. rewrite !app_assoc. split; [reflexivity|]. split; [exact M2|]. now rewrite E1, E2.
  - exists l, [], new. rewrite app_nil_r. split; [exact K|]. split; [reflexivity|]. split; [exact M|].
    destruct U as [U|(s & U)]; rewrite U; [reflexivity|]. destruct (veq_text (tget n_category t) c) eqn:W; [|reflexivity]. exfalso.
    apply veq_some in W. destruct A as [A|A]; [congruence|now apply A].
Qed.
Lemma cat_infos_ok d : forall L M1 M2, Forall (fun it : str * table => k_table (fst it) d = Ret (snd it) /\ telling (snd it)) L -> filled M1 -> filled M2 ->
  exists N1 N2, cat_infos (map fst L) d (lift M1, lift M2) = Ret (lift N1, lift N2) /\ filled N1 /\ filled N2
    /\ (forall c l, needed c L l -> sget c N1 = sget c M1 ++ l)
    /\ (forall c l new, unique_of c L l -> missing (sget c M2) l new -> sget c N2 = sget c M2 ++ new)
    /\ (forall c, In c (map fst N1) -> In c (map fst M1) \/ exists i t, In (i, t) L /\ tget n_category t = Some (VStr c) /\ tget n_mandatory t = Some (VStr (u "yes")))
    /\ (forall c, In c (map fst N2) -> In c (map fst M2) \/ exists i t, In (i, t) L /\ tget n_category t = Some (VStr c) /\ tget n_unique t <> None).
Proof.
  induction L as [|[i t] L IH]; intros M1 M2 F F1 F2.
  - exists M1, M2. split; [reflexivity|]. split; [exact F1|]. split; [exact F2|]. repeat split.
    + intros c l H. inversion H; subst. now rewrite app_nil_r.
    + intros c l new H M. inversion H; subst. inversion M; subst. now rewrite app_nil_r.
    + tauto.
    + tauto.
  - pose proof (Forall_inv F) as [E T]. cbn [fst snd] in E, T. destruct (cat_info_ok i t M1 M2 T F1 F2) as (K1 & K2 & E2 & G1 & G2 & H1 & H2).
    destruct (IH K1 K2 (Forall_inv_tail F) G1 G2) as (N1 & N2 & E3 & G3 & G4 & H3 & H4 & H5 & H6).
    exists N1, N2. cbn [map fst cat_infos]. rewrite E. cbn [obind]. rewrite E2. cbn [obind]. split; [exact E3|]. split; [exact G3|]. split; [exact G4|].
    assert (forall c (M : list (str * list str)), filled M -> In c (map fst M) <-> sget c M <> []) as Gin.
    { intros c M [Nd Fd]. unfold sget. split.
      - intros Hc. apply in_map_iff in Hc as ((c' & l) & Ec & Hc). cbn in Ec. subst c'. pose proof (Fd c l Hc). apply dget_in in Hc; [|exact Nd]. now rewrite Hc.
      - intros Hc. destruct (dget str_eqb c M) as [l|] eqn:D; [|now elim Hc]. apply dget_in in D; [|exact Nd]. change c with (fst (c, l)). now apply in_map. }
    split; [|split; [|split]].
    + intros c l H. destruct (needed_step c i t L l H) as (r & Hr & ->). rewrite (H3 c r Hr), H1, <- app_assoc. reflexivity.
    + intros c l new H M. destruct T as [_ T2]. destruct (unique_step c i t L l (sget c M2) new T2 H M) as (l2 & n1 & n2 & U & -> & M' & Es).
      rewrite (H4 c l2 n2 U).
      * rewrite H2, <- Es. now rewrite <- app_assoc.
      * rewrite H2, <- Es. exact M'.
    + intros c Hc. destruct (H5 c Hc) as [K|(j & t' & A & B)]; [|right; exists j, t'; split; [now right|exact B]].
      apply (Gin c K1 G1) in K. rewrite H1 in K. destruct (andb (veq_text (tget n_mandatory t) (u "yes")) (veq_text (tget n_category t) c)) eqn:W.
      * right. exists i, t. apply andb_true_iff in W as [W1 W2]. split; [now left|]. split; now apply veq_some.
      * rewrite app_nil_r in K. left. now apply Gin.
    + intros c Hc. destruct (H6 c Hc) as [K|(j & t' & A & B)]; [|right; exists j, t'; split; [now right|exact B]].
      apply (Gin c K2 G2) in K. rewrite H2 in K. destruct T as [_ [T2|(s & T2)]]; rewrite T2 in K; [left; now apply Gin|]. destruct (veq_text (tget n_category t) c) eqn:W.
      * right. exists i, t. split; [now left|]. split; [now apply veq_some|]. now rewrite T2.
      * left. now apply Gin.
Qed.
Lemma cat_store_ok att : forall M d, well_listed d -> NoDup (map fst M) ->
  (forall c, In c (map fst M) -> lower c = c /\ In c (k_keys d) /\ forall t ov, defines d c (t, ov) -> tmem att t = false \/ ov = true) ->
  exists d', cat_store att (lift M) d = Ret d' /\ well_listed d' /\ k_ids d' = k_ids d /\ map fst (k_blocks d') = map fst (k_blocks d)
    /\ (forall i t ov, defines d i (t, ov) -> defines d' i (match dget str_eqb i M with Some l => put att (VList (map VStr l)) t | None => t end, ov))
    /\ (forall b e, ~ In b (map snd (k_ids d)) -> In (b, e) (k_blocks d) -> In (b, e) (k_blocks d')).
Proof.
  induction M as [|[c l] M IH]; intros d W N H.
  - exists d. split; [reflexivity|]. split; [exact W|]. split; [reflexivity|]. split; [reflexivity|]. split; auto.
  - cbn [lift map cat_store fst snd]. cbn [map fst] in N. inversion N as [|? ? N1 N2]; subst.
    destruct (H c (or_introl eq_refl)) as (Lc & Kc & Ac). destruct (defines_some d c W Kc) as ([t0 ov0] & D0).
    assert (defines d (lower c) (t0, ov0)) as D0' by (now rewrite Lc).
    destruct (set_id d c att (VList (map VStr l)) t0 ov0 W D0' (Ac _ _ D0)) as (d1 & E1 & W1 & I1 & B1 & V1 & O1). rewrite E1.
    destruct (IH d1 W1 N2) as (d' & E' & W' & I' & B' & V' & O').
    { intros x Hx. destruct (H x (or_intror Hx)) as (Lx & Kx & Ax). split; [exact Lx|]. split; [unfold k_keys in *; now rewrite I1|].
      intros t ov Dx. destruct (defines_some d x W Kx) as ([t2 ov2] & Dx2). pose proof (V1 x _ Dx2) as Dx3.
      rewrite Lc in Dx3. rewrite eqb_diff in Dx3 by (intros ->; contradiction).
      assert ((t, ov) = (t2, ov2)) as Ee.
      { assert (k_get x d1 = Ret (t, ov)) as Q1 by (apply get_id; [exact W1|now rewrite Lx]). assert (k_get x d1 = Ret (t2, ov2)) as Q2 by (apply get_id; [exact W1|now rewrite Lx]). congruence. }
      injection Ee as -> ->. now apply Ax. }
    exists d'. split; [exact E'|]. split; [exact W'|]. split; [congruence|]. split; [congruence|]. split.
    + intros i t ov Di. pose proof (V1 i _ Di) as D1. rewrite Lc in D1. cbn [dget]. destruct (str_eqb_spec i c) as [->|n].
      * assert ((t, ov) = (t0, ov0)) as Ee.
        { assert (k_get c d = Ret (t, ov)) as Q1 by (apply get_id; [exact W|now rewrite Lc]). assert (k_get c d = Ret (t0, ov0)) as Q2 by (apply get_id; [exact W|exact D0']). congruence. }
        injection Ee as -> ->. pose proof (V' c _ _ D1) as D2. assert (dget str_eqb c M = None) as Z by (apply (dget_None str_eqb str_eqb_spec); exact N1). rewrite Z in D2. exact D2.
      * now apply V'.
    + intros b e Hb Hin. apply O'; [now rewrite I1|]. now apply O1.
Qed.

Theorem cat_load_ok d L : well_listed d -> map fst L = k_keys d -> Forall (fun it : str * table => (exists ov, defines d (fst it) (snd it, ov)) /\ telling (snd it)) L ->
  (forall i t c, In (i, t) L -> tget n_category t = Some (VStr c) -> tget n_mandatory t = Some (VStr (u "yes")) \/ tget n_unique t <> None ->
     lower c = c /\ In c (k_keys d) /\ forall t' ov, defines d c (t', ov) -> (tget (u "_category_mandatory.name") t' = None /\ tget (u "_category_key.name") t' = None) \/ ov = true) ->
  exists d', ddl1_cat_load d = Ret d' /\ well_listed d' /\ k_ids d' = k_ids d /\ map fst (k_blocks d') = map fst (k_blocks d)
    /\ (forall i t ov, defines d i (t, ov) -> exists t', defines d' i (t', ov)
         /\ (forall a, ~ In (lower a) [u "_category_mandatory.name"; u "_category_key.name"] -> tget a t' = tget a t)
         /\ (forall l, needed i L l -> tget (u "_category_mandatory.name") t' = told (tget (u "_category_mandatory.name") t) l)
         /\ (forall l new, unique_of i L l -> missing [] l new -> tget (u "_category_key.name") t' = told (tget (u "_category_key.name") t) new))
    /\ (forall b e, ~ In b (map snd (k_ids d)) -> In (b, e) (k_blocks d) -> In (b, e) (k_blocks d')).
Proof.
  intros W EL F H. unfold ddl1_cat_load.
  assert (Forall (fun it : str * table => k_table (fst it) d = Ret (snd it) /\ telling (snd it)) L) as F'.
  { apply Forall_impl with (2 := F). intros [i t] [(ov & D) T]. cbn [fst snd] in *. split; [|exact T].
    assert (lower i = i) as Li by (destruct D as (b & D & _); now apply (wl_at d W) in D). unfold k_table. rewrite (get_id d i (t, ov) W); [reflexivity|now rewrite Li]. }
  destruct (cat_infos_ok d L [] [] F') as (N1 & N2 & E & G1 & G2 & H1 & H2 & H3 & H4); [split; [constructor|intros ? ? []]|split; [constructor|intros ? ? []]|].
  assert (cat_infos (k_keys d) d ([], []) = Ret (lift N1, lift N2)) as E0 by (rewrite <- EL; exact E).
  match goal with |- exists d', ?X = _ /\ _ => assert (X = obind (cat_store (u "_category_mandatory.name") (lift N1) d) (cat_store (u "_category_key.name") (lift N2))) as ->
    by (transitivity (obind (Ret (lift N1, lift N2)) (fun m : per_cat * per_cat => obind (cat_store (u "_category_mandatory.name") (fst m) d) (cat_store (u "_category_key.name") (snd m))));
        [exact (f_equal (fun x => obind x _) E0)|reflexivity]) end.
  destruct (cat_store_ok (u "_category_mandatory.name") N1 d W (proj1 G1)) as (d1 & E1 & W1 & I1 & B1 & V1 & O1).
  { intros c Hc. destruct (H3 c Hc) as [[]|(i & t & A1 & A2 & A3)]. destruct (H i t c A1 A2 (or_introl A3)) as (X1 & X2 & X3). split; [exact X1|]. split; [exact X2|].
    intros t' ov D. destruct (X3 t' ov D) as [[X4 _]|X4]; [left; unfold tmem; now rewrite X4|now right]. }
  rewrite E1. cbn [obind].
  destruct (cat_store_ok (u "_category_key.name") N2 d1 W1 (proj1 G2)) as (d2 & E2 & W2 & I2 & B2 & V2 & O2).
  { intros c Hc. destruct (H4 c Hc) as [[]|(i & t & A1 & A2 & A3)]. destruct (H i t c A1 A2 (or_intror A3)) as (X1 & X2 & X3). split; [exact X1|]. split; [unfold k_keys in *; now rewrite I1|].
    intros t' ov D. destruct (defines_some d c W X2) as ([t0 ov0] & D0). pose proof (V1 c t0 ov0 D0) as D1.
    assert (forall e, defines d1 c e -> k_get c d1 = Ret e) as Q by (intros e De; apply get_id; [exact W1|now rewrite X1]).
    pose proof (Q _ D) as Q1. rewrite (Q _ D1) in Q1. injection Q1 as <- <-.
    destruct (X3 t0 ov0 D0) as [[_ X4]|X4]; [left|now right]. unfold tmem. destruct (dget str_eqb c N1); [rewrite put_get; names|]; now rewrite X4. }
  exists d2. split; [exact E2|]. split; [exact W2|]. split; [congruence|]. split; [congruence|]. split.
  - intros i t ov D. pose proof (V2 i _ _ (V1 i t ov D)) as D2. eexists. split; [exact D2|].
    assert (forall (N : list (str * list str)) x, filled N -> match dget str_eqb x N with Some l => l <> [] /\ sget x N = l | None => sget x N = [] end) as Fl.
    { intros N x [Nd Fd]. unfold sget. destruct (dget str_eqb x N) as [l|] eqn:Dx; [|reflexivity]. apply dget_in in Dx; [|exact Nd]. split; [now apply (Fd x)|reflexivity]. }
    split; [|split].
    + intros a Ha. cbn [In] in Ha. destruct (dget str_eqb i N2); destruct (dget str_eqb i N1); rewrite ?put_get; change (lower (u "_category_mandatory.name")) with (u "_category_mandatory.name");
        change (lower (u "_category_key.name")) with (u "_category_key.name"); rewrite ?(eqb_diff (lower a)); try reflexivity; intros K; symmetry in K; tauto.
    + intros l Hl. pose proof (H1 i l Hl) as Sl. cbn [sget dget app] in Sl. pose proof (Fl N1 i G1) as Q.
      assert (forall w, tget (u "_category_mandatory.name") (match dget str_eqb i N2 with Some k => put (u "_category_key.name") (VList (map VStr k)) w | None => w end) = tget (u "_category_mandatory.name") w) as Sk
        by (intros w; destruct (dget str_eqb i N2); [rewrite put_get; names|]; reflexivity).
      rewrite Sk. destruct (dget str_eqb i N1) as [l'|].
      * destruct Q as [Q1 Q2]. rewrite put_get. names. rewrite Sl in Q2. subst l'. unfold told. destruct l; [now elim Q1|reflexivity].
      * rewrite <- Sl, Q. reflexivity.
    + intros l new Hl Hm. pose proof (H2 i l new Hl Hm) as Sl. cbn [sget dget app] in Sl. pose proof (Fl N2 i G2) as Q.
      assert (tget (u "_category_key.name") (match dget str_eqb i N1 with Some k => put (u "_category_mandatory.name") (VList (map VStr k)) t | None => t end) = tget (u "_category_key.name") t) as Sk
        by (destruct (dget str_eqb i N1); [rewrite put_get; names|]; reflexivity).
      destruct (dget str_eqb i N2) as [l'|].
      * destruct Q as [Q1 Q2]. rewrite put_get. names. rewrite Sl in Q2. subst l'. unfold told. destruct new; [now elim Q1|reflexivity].
      * rewrite <- Sl, Q. exact Sk.
  - intros b e Hb Hin. apply O2; [now rewrite I1|]. now apply O1.
Qed.
