(** Loading DDL2 dictionaries. *)
From Coq Require Import String Ascii List NArith PeanoNat Bool Lia.
From Verif Require Import PyBase PyFacts StarBlockModel LoopModel LoopSpec LoopProofs CollectionModel ValidateModel
  TreeModel EditModel EditProofs EditProofs2 DdlModel DdlSpec DdlProofs DdlProofs2 DdlProofs3 DdlProofs4.
Import ListNotations.
Open Scope nat_scope.

Lemma few_elems t l : few_names t -> elems_of (tget m_name t) = Some l -> (1 <? length l) = false.
Proof.
  intros F E. apply Nat.ltb_ge. apply F. unfold elems_of in E. destruct (tget m_name t) as [[]|]; try discriminate; injection E as ->; tauto.
Qed.
Lemma dodgy_same d : (forall k t, k_table k d = Ret t -> few_names t) -> forall keys d1, dodgy keys d = Ret d1 -> d1 = d.
Proof.
  intros F. induction keys as [|k keys IH]; cbn [dodgy]; intros d1 H; [now injection H|].
  destruct (k_table k d) as [t|e] eqn:E; cbn [obind] in H; [|discriminate]. destruct (elems_of (tget m_name t)) as [l|] eqn:L; [|auto].
  rewrite (few_elems t l (F k t E) L) in H. auto.
Qed.
Lemma dodgy_ret d : (forall k t, k_table k d = Ret t -> few_names t) -> forall keys, Forall (fun k => exists t, k_table k d = Ret t) keys -> dodgy keys d = Ret d.
Proof.
  intros F. induction keys as [|k keys IH]; cbn [dodgy]; intros H; [reflexivity|]. destruct (Forall_inv H) as (t & E). rewrite E. cbn [obind].
  destruct (elems_of (tget m_name t)) as [l|] eqn:L; [rewrite (few_elems t l (F k t E) L)|]; apply IH; exact (Forall_inv_tail H).
Qed.
Lemma aliases_same d : forall keys d1, aliases keys d = Ret d1 -> d1 = d /\ Forall (fun k => exists t, k_table k d = Ret t /\ (tget m_alias t = None \/ exists v, tget m_alias t = Some v /\ no_element v)) keys.
Proof.
  induction keys as [|k keys IH]; cbn [aliases]; intros d1 H; [injection H as <-; split; [reflexivity|constructor]|].
  destruct (k_table k d) as [t|e] eqn:E; cbn [obind] in H; [|discriminate]. destruct (tget m_alias t) as [v|] eqn:A.
  - destruct (listify v) as [l|e] eqn:L; cbn [obind] in H; [|discriminate]. destruct l as [|[]l]; try discriminate.
    + destruct (IH d1 H) as [-> F]. split; [reflexivity|]. constructor; [|exact F]. exists t. split; [exact E|]. right.
      exists v. split; [exact A|]. destruct v; cbn [listify] in L; try discriminate; [injection L as ->; constructor|injection L as ->; constructor|].
      destruct d0; [constructor|discriminate].
    + destruct (75 <? length s); [discriminate|]. destruct (smem _ _); [discriminate|]. destruct (tmem a_def t); discriminate.
  - destruct (IH d1 H) as [-> F]. split; [reflexivity|]. constructor; [|exact F]. exists t. split; [exact E|now left].
Qed.
Lemma aliases_ret d : forall keys, Forall (fun k => exists t, k_table k d = Ret t /\ tget m_alias t = None) keys -> aliases keys d = Ret d.
Proof.
  induction keys as [|k keys IH]; cbn [aliases]; intros H; [reflexivity|]. destruct (Forall_inv H) as (t & E & A). rewrite E. cbn [obind]. rewrite A. apply IH. exact (Forall_inv_tail H).
Qed.
Lemma k_table_in d k t : k_table k d = Ret t -> exists b ov, In (b, (t, ov)) (k_blocks d).
Proof.
  unfold k_table, k_get. destruct (k_find k d) as [b|]; cbn [obind]; [|discriminate]. destruct (dget str_eqb b (k_blocks d)) as [[t' ov]|] eqn:G; cbn [obind fst]; [|discriminate].
  intros H. injection H as ->. exists b, ov. now apply (dget_In str_eqb str_eqb_spec).
Qed.
(** Whatever loads is unchanged. *)
Theorem ddl2_same roots d D : (forall k t ov, In (k, (t, ov)) d -> tget n_cat_id t <> None -> few_names t) -> load_ddl2 roots d = Ret D ->
  k_blocks D = d /\ (forall i t, In i (k_keys D) -> k_table i D = Ret t -> tget m_alias t = None \/ exists v, tget m_alias t = Some v /\ no_element v)
  /\ (forall k t ov l, In (k, (t, ov)) d -> tget n_cat_id t = None -> tget m_name t <> Some (VList l) /\ tget m_name t <> Some (VSL l)).
Proof.
  intros F H. unfold load_ddl2 in H. destruct (def_block_table n_cat_id m_name (map lower roots) d) as [ids|e] eqn:E; cbn [obind] in H; [|discriminate].
  set (d0 := DDic _ _ _ _) in H. unfold ddl2_normalise in H.
  assert (forall k t ov l, In (k, (t, ov)) d -> tget n_cat_id t = None -> tget m_name t <> Some (VList l) /\ tget m_name t <> Some (VSL l)) as No.
  { intros k t ov l I A. unfold def_block_table in E. destruct (existsb unhashable _) eqn:X in E; [discriminate|].
    assert (forall v, tget m_name t = Some v -> unhashable v = false) as Q.
    { intros v V. destruct (unhashable v) eqn:Y; [|reflexivity]. rewrite <- X. symmetry. apply existsb_exists. exists v. split; [|exact Y].
      rewrite map_map. apply in_map_iff. exists (k, (t, ov)). split; [|exact I]. cbn [fst snd]. unfold id_of. rewrite A, V. reflexivity. }
    split; intros V; specialize (Q _ V); discriminate Q. }
  assert (forall k t, k_table k d0 = Ret t -> few_names t) as Few.
  { intros k t K. apply k_table_in in K as (b & ov & K). cbn [d0 k_blocks] in K. destruct (tget n_cat_id t) as [c|] eqn:A; [apply (F b t ov K); congruence|].
    intros l [V|V]; destruct (No b t ov l K A) as [X Y]; [now elim X|now elim Y]. }
  destruct (dodgy (k_keys d0) d0) as [d1|e] eqn:G; cbn [obind] in H; [|discriminate]. pose proof (dodgy_same d0 Few _ _ G) as ->.
  destruct (aliases_same d0 _ _ H) as [-> Al]. split; [reflexivity|]. split; [|exact No].
  intros i t I K. rewrite Forall_forall in Al. destruct (Al i I) as (t' & K' & X). rewrite K in K'. injection K' as ->. exact X.
Qed.
(** What loads. *)
Theorem ddl2_loads roots d ids : Forall2 (known_as n_cat_id m_name) d ids -> NoDup (map lower ids) -> NoDup (map fst d) -> (forall k, In k (map fst d) -> lower k = k) ->
  Forall (fun x : str * entry => few_names (fst (snd x)) /\ tget m_alias (fst (snd x)) = None) d ->
  exists D, load_ddl2 roots d = Ret D /\ k_blocks D = d /\ well_listed D
    /\ (forall k e i, In (k, e, i) (combine d ids) -> ~ In k (map lower roots) -> defines D (lower i) e)
    /\ (forall i, In i (k_keys D) -> exists k e j, In (k, e, j) (combine d ids) /\ ~ In k (map lower roots) /\ i = lower j).
Proof.
  intros K N Nd L F. unfold load_ddl2.
  assert (NoDup (map fst (listing (map lower roots) d ids))) as Nl.
  { clear - N. revert ids N. induction d as [|[k e] d IH]; intros [|i ids] N; cbn [listing map]; try constructor. cbn [map] in N. inversion N as [|? ? N1 N2]; subst.
    destruct (smem k (map lower roots)); [now apply IH|]. cbn [map fst]. constructor; [|now apply IH]. intros X. apply in_map_iff in X as ((a & b) & E & X). cbn in E. subst a.
    apply listing_in in X as (i0 & A & B & _). apply N1. rewrite B. now apply in_map. }
  rewrite (table_made n_cat_id m_name (map lower roots) d ids K (NoDup_map_inv _ _ N) L Nl). cbn [obind].
  set (tab := listing (map lower roots) d ids). set (D := DDic _ _ _ _).
  assert (well_listed D) as W.
  { destruct (listing_good (map lower roots) d ids Nd L Nl) as [A B C E]. split; cbn [D k_ids k_blocks] in *; assumption. }
  assert (forall i, In i (k_keys D) -> exists t, k_table i D = Ret t /\ tget m_alias t = None) as T.
  { intros i I. destruct (defines_some D i W I) as ([t ov] & De). exists t. assert (lower i = i) as Li by (apply in_map_iff in I as ((a & b) & E & I); cbn in E; subst a; now apply (wl_at D W) in I).
    split; [unfold k_table; rewrite (get_id D i (t, ov) W); [reflexivity|now rewrite Li]|]. destruct De as (b & _ & De). cbn [D k_blocks] in De. rewrite Forall_forall in F. apply (F _ De). }
  exists D. unfold ddl2_normalise. rewrite dodgy_ret.
  - cbn [obind]. split; [|split; [reflexivity|split; [exact W|split]]].
    + apply aliases_ret. apply Forall_forall. exact T.
    + clear - Nd. subst D tab. intros k e i I n. exists k. cbn [k_ids k_blocks]. clear Nd. revert ids I. induction d as [|[k0 e0] d IH]; intros [|j ids] I; try destruct I; cbn [listing].
      * injection H as -> -> ->. apply (mem_false str_eqb str_eqb_spec) in n. unfold smem. rewrite n. split; now left.
      * destruct (IH ids H) as [A B]. split; [|now right]. destruct (smem k0 (map lower roots)); [exact A|now right].
    + unfold k_keys. subst D tab. cbn [k_ids]. clear. revert ids. induction d as [|[k0 e0] d IH]; intros [|j ids] i I; try destruct I; cbn [listing map] in I.
      destruct (smem k0 (map lower roots)) eqn:E.
      * destruct (IH ids i I) as (k & e & x & A & B & C). exists k, e, x. split; [now right|now split].
      * destruct I as [<-|I].
        -- exists k0, e0, j. split; [now left|]. split; [|reflexivity]. now apply (mem_false str_eqb str_eqb_spec).
        -- destruct (IH ids i I) as (k & e & x & A & B & C). exists k, e, x. split; [now right|now split].
  - intros k t X. apply k_table_in in X as (b & ov & X). cbn [D k_blocks] in X. rewrite Forall_forall in F. now apply (F _ X).
  - apply Forall_forall. intros i I. destruct (T i I) as (t & A & _). now exists t.
Qed.
