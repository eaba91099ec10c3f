From Coq Require Import String Ascii List Arith NArith Bool Lia.
From Verif Require Import PyBase PyFacts StarBlockModel ValidateModel ValidateProofs ValidateProofs2 ValidateProofs3 TreeModel TreeSpec TreeProofs TreeProofs2 ImportModel ImportSpec.
Import ListNotations.
Open Scope nat_scope.

Lemma dget_map_keep {V} (f : str * V -> str * V) (g : str -> V -> V) (d : list (str * V)) a : (forall k v, f (k, v) = (k, g k v)) -> dget str_eqb a (map f d) = option_map (g a) (dget str_eqb a d).
Proof. intros H. induction d as [|[k v] d IH]; [reflexivity|]. cbn [map]. rewrite H. cbn [dget]. destruct (str_eqb_spec a k) as [->|N]; [reflexivity|exact IH]. Qed.
Lemma dget_filter_key {V} k (d : list (str * V)) a : dget str_eqb a (filter (fun kv => negb (str_eqb (fst kv) k)) d) = if str_eqb a k then None else dget str_eqb a d.
Proof.
  induction d as [|[x v] d IH]; cbn [filter fst dget]; [now destruct (str_eqb a k)|]. destruct (str_eqb_spec x k) as [->|N]; cbn [negb].
  - rewrite IH. destruct (str_eqb_spec a k); reflexivity.
  - cbn [dget]. rewrite IH. destruct (str_eqb_spec a x) as [->|N2]; [|reflexivity]. destruct (str_eqb_spec x k); [contradiction|reflexivity].
Qed.
Lemma frames_ok from l : (forall a, In a l -> exists t, dget str_eqb (lower a) from = Some t) ->
  exists fs, frames_of from l = Ret fs /\ map fst fs = map lower l /\ forall k t, In (k, t) fs -> dget str_eqb k from = Some t.
Proof.
  induction l as [|a l IH]; intros H; [exists []; repeat split; intros k t []|]. destruct (H a (or_introl eq_refl)) as (t & E). destruct IH as (fs & E2 & E3 & E4); [intros b Hb; apply H; now right|].
  cbn [frames_of]. unfold def_of. rewrite E, E2. cbn [obind]. eexists. split; [reflexivity|]. split; [cbn [map fst]; now f_equal|]. intros k t' [K|K]; [injection K as <- <-; exact E|now apply E4].
Qed.
Lemma prune_ok d from fs : ids_are_keys from -> (forall k t, In (k, t) fs -> In (k, t) from) -> prune d fs = Ret (filter (fun kt => negb (dmem str_eqb (fst kt) d)) fs).
Proof.
  intros I H. induction fs as [|[k t] fs IH]; [reflexivity|]. cbn [prune]. destruct (I k t (H k t (or_introl eq_refl))) as (i & E & L). unfold superseded. change (tget a_defid t = Some (VStr i)) in E. rewrite E. cbn [obind]. rewrite IH by (intros k' t' K; apply H; now right). cbn [obind filter fst]. rewrite L. destruct (dmem str_eqb k d); reflexivity.
Qed.
Lemma names_child d a t c : well_formed d -> c <> [] -> In (a, t) d -> (child d a c <-> names_head c t).
Proof.
  intros W N H. split.
  - intros (t' & H' & [K|[_ K]]); [|destruct c; [now elim N|discriminate]]. assert (t' = t) as -> by (apply (defs_dget _ _ _ (w_keys _ W)) in H, H'; rewrite H in H'; now injection H'). exact K.
  - intros K. exists t. split; [exact H|]. now left.
Qed.
Lemma set_category_get m t x : tget x (set_category m t) = if str_eqb (lower x) a_category then Some (VStr m) else tget x t.
Proof. unfold set_category, tget. destruct (str_eqb_spec (lower x) a_category) as [->|N]; [apply dget_dset_same|now apply dget_dset_other]. Qed.
Definition strip (t : table) : table := filter (fun av => negb (str_eqb (fst av) (u "_import.get"))) t.
Lemma strip_get t x : tget x (strip t) = if str_eqb (lower x) (u "_import.get") then None else tget x t.
Proof. unfold strip, tget. apply (dget_filter_key (u "_import.get")). Qed.
Section HeadToHead.
  Variables (n : nat) (d from : defs) (parent target head m : str) (height : str -> nat).
  Hypotheses (Wd : well_formed d) (Wf : well_formed from) (Af : acyclic from height) (If : ids_are_keys from)
    (Lh : lower head = lower target) (Ch : category from (lower head)) (Ht : height (lower head) < n) (Nh : head <> []).
  Lemma under_key a : under from head a -> a = head \/ In a (map fst from).
  Proof. intros U. inversion U as [|? ? H|? p ? H1 H2 H3]; subst; [now left|right; now apply (child_key from a head)|]. apply under_below in H3. inversion H3 as [|q ? K1 K2 K3]; subst; right; [now apply (child_key from a head)|now apply (child_key from a q)]. Qed.
  Lemma under_not_head a : under from head a -> a <> head -> a <> lower head.
  Proof.
    intros U N ->. apply under_below in U. destruct (below_height from height head (lower head) Wf Af U) as [E|[_ E]]; [now elim N|]. specialize (E Ch). lia.
  Qed.
  Variable frames : list str.
  Hypothesis Ef : all_children n from head = Ret frames.
  Lemma frames_nodup : NoDup frames.
  Proof. apply (all_children_once n from head frames height Wf Af); [|exact Ef]. intros K. rewrite <- (key_lower from head Wf K). exact Ch. Qed.
  Lemma frames_in a : In a frames <-> under from head a.
  Proof. now apply (all_children_under n from head frames Wf). Qed.
  Lemma frames_lower : NoDup (map lower frames).
  Proof.
    pose proof frames_nodup as N. assert (forall a, In a frames -> under from head a) as H by (intros a Ha; now apply frames_in). revert N H. generalize frames. clear Ef frames. induction frames as [|a l IH]; intros N H; [constructor|]. inversion N as [|? ? H1 H2]; subst. cbn [map]. constructor; [|apply IH; [exact H2|intros b Hb; apply H; now right]].
    intros K. apply in_map_iff in K. destruct K as (b & E & Hb). pose proof (H a (or_introl eq_refl)) as Ua. pose proof (H b (or_intror Hb)) as Ub. destruct (under_key a Ua) as [->|Ka], (under_key b Ub) as [->|Kb].
    - contradiction.
    - rewrite (key_lower _ _ Wf Kb) in E. apply (under_not_head b Ub); [intros ->; contradiction|exact E].
    - rewrite (key_lower _ _ Wf Ka) in E. symmetry in E. apply (under_not_head a Ua); [intros ->; contradiction|exact E].
    - rewrite (key_lower _ _ Wf Ka), (key_lower _ _ Wf Kb) in E. subst b. contradiction.
  Qed.
  Lemma frames_found a : In a frames -> exists t, dget str_eqb (lower a) from = Some t.
  Proof.
    intros H. apply frames_in in H. assert (In (lower a) (map fst from)) as K.
    { destruct (under_key a H) as [->|K]; [now apply cat_in|]. now rewrite (key_lower _ _ Wf K). }
    apply in_map_iff in K. destruct K as ((k & t) & E & K). cbn [fst] in E. subst k. exists t. now apply (defs_dget _ _ _ (w_keys _ Wf)).
  Qed.
  Hypotheses (Hp : dget str_eqb (lower parent) d <> None) (Hph : forall t, dget str_eqb (lower parent) d = Some t -> is_head t = true /\ tget a_object t = Some (VStr m))
    (Hth : forall t, dget str_eqb (lower target) from = Some t -> is_head t = true /\ tget a_object t = Some (VStr head)) (Hnew : ~ In (lower head) (map fst d)).
  Definition the_source (a : str) : option table :=
    match dget str_eqb a d with Some t => Some t | None => if smem a (map lower frames) then dget str_eqb a from else None end.
  Definition renamed (a : str) (t : table) : table := if match tget a_category t with Some (VStr s) => str_eqb (lower s) (lower head) | _ => false end then set_category m t else t.
  Lemma full_import_get : exists d2, full_import n d parent from target = Ret d2 /\ NoDup (map fst d2)
    /\ forall a, dget str_eqb a d2 = if str_eqb a (lower head) then None else option_map (fun t => let t' := renamed a t in if str_eqb a (lower parent) then strip t' else t') (the_source a).
  Proof.
    destruct (frames_found head) as (tt & Ett); [apply frames_in; constructor|]. rewrite Lh in Ett. destruct (Hth tt Ett) as [Htt Ott].
    destruct (dget str_eqb (lower parent) d) as [pt|] eqn:Ept; [|now elim Hp]. destruct (Hph pt eq_refl) as [Hpt Opt].
    destruct (frames_ok from frames frames_found) as (fs & Efs & Kfs & Gfs).
    assert (forall k t, In (k, t) fs -> In (k, t) from) as Ifs by (intros k t H; apply (defs_dget _ _ _ (w_keys _ Wf)); now apply Gfs).
    pose proof (prune_ok d from fs If Ifs) as Epr. set (fs' := filter _ fs) in Epr.
    assert (NoDup (map fst fs)) as Nfs by (rewrite Kfs; apply frames_lower).
    assert (forall k t, In (k, t) fs' <-> In (k, t) fs /\ ~ In k (map fst d)) as Hfs'.
    { intros k t. unfold fs'. rewrite filter_In. cbn [fst]. unfold dmem. split; intros [H1 H2]; (split; [exact H1|]).
      - destruct (dget str_eqb k d) eqn:E; [discriminate|]. now apply dget_none_keys in E.
      - apply dget_none_keys in H2. now rewrite H2. }
    set (d1 := d ++ fs').
    assert (well_formed d1) as W1.
    { constructor.
      - unfold d1. rewrite map_app. apply NoDup_app_iff. split; [apply Wd|]. split; [unfold fs'; now apply NoDup_map_filter|]. intros k H1 H2. apply in_map_iff in H2. destruct H2 as ((k' & t) & <- & H2). apply Hfs' in H2. now destruct H2.
      - intros k t H. apply in_app_or in H. destruct H as [H|H]; [now apply (w_lower _ Wd k t)|]. apply Hfs' in H. apply (w_lower _ Wf k t). now apply Ifs.
      - intros k t v H. apply in_app_or in H. destruct H as [H|H]; [now apply (w_text _ Wd k t)|]. apply Hfs' in H. apply (w_text _ Wf k t). now apply Ifs. }
    assert (forall a, dget str_eqb a d1 = the_source a) as G1.
    { intros a. unfold d1, the_source. rewrite (dget_app str_eqb str_eqb_spec). destruct (dget str_eqb a d) as [t|] eqn:E; [reflexivity|]. assert (smem a (map lower frames) = true <-> In a (map fst fs)) as Sm by (rewrite smem_spec, Kfs; reflexivity).
      destruct (dget str_eqb a fs') as [t|] eqn:E'.
      - apply (dget_In str_eqb str_eqb_spec) in E'. apply Hfs' in E'. destruct E' as [E' _]. rewrite (proj2 Sm) by (apply in_map_iff; now exists (a, t)). symmetry. now apply Gfs.
      - destruct (smem a (map lower frames)) eqn:Es; [|reflexivity]. pose proof (proj1 Sm eq_refl) as K. apply in_map_iff in K. destruct K as ((k & t) & Ek & K). cbn [fst] in Ek. subst k. exfalso. apply dget_none_keys in E'. apply E'. apply in_map_iff. exists (a, t). split; [reflexivity|]. apply Hfs'. split; [exact K|]. now apply dget_none_keys. }
    destruct (immediate_ok d1 head W1) as (kids & Ek & _ & Hk).
    assert (forall a t, dget str_eqb a d1 = Some t -> (if smem a kids then set_category m t else t) = renamed a t) as Gr.
    { intros a t E. apply (defs_dget _ _ _ (w_keys _ W1)) in E. unfold renamed. destruct (smem a kids) eqn:Es.
      - apply smem_spec, Hk in Es. apply (names_child d1 a t head W1 Nh E) in Es. destruct Es as (s & Es & Ls). change (tget a_category t = Some (VStr s)) in Es. rewrite Es, Ls, str_eqb_refl. reflexivity.
      - destruct (tget a_category t) as [[s| | | | |]|] eqn:Ec; try reflexivity. destruct (str_eqb_spec (lower s) (lower head)) as [Ls|Ls]; [|reflexivity]. exfalso. assert (In a kids) as K by (apply Hk; apply (names_child d1 a t head W1 Nh E); exists s; now split). apply smem_spec in K. rewrite K in Es. discriminate. }
    assert (forall a, dget str_eqb a (reparent m kids d1) = option_map (renamed a) (the_source a)) as G2.
    { intros a. unfold reparent. rewrite (dget_map_keep _ (fun k t => if smem k kids then set_category m t else t)) by (intros k t; cbn [fst snd]; now destruct (smem k kids)). rewrite <- G1. destruct (dget str_eqb a d1) as [t|] eqn:E; [|reflexivity]. cbn [option_map]. f_equal. now apply Gr. }
    assert (lower parent <> lower head) as Np by (intros E; apply Hnew; rewrite <- E; apply (dget_In str_eqb str_eqb_spec) in Ept; apply in_map_iff; now exists (lower parent, pt)).
    assert (exists t, the_source (lower head) = Some t) as (th & Eth).
    { unfold the_source. apply dget_none_keys in Hnew. rewrite Hnew. assert (smem (lower head) (map lower frames) = true) as -> by (apply smem_spec, in_map, frames_in; constructor). rewrite Lh. now exists tt. }
    assert (the_source (lower parent) = Some pt) as Esp by (unfold the_source; now rewrite Ept).
    unfold full_import, def_of. rewrite Ett. cbn [obind]. unfold attr_of at 1. rewrite Ott. cbn [obind]. rewrite Ef. cbn [obind]. rewrite Ept. cbn [obind]. cbn zeta. rewrite Hpt, Htt. cbn [andb]. rewrite Efs. cbn [obind]. rewrite Epr. cbn [obind]. fold d1. rewrite G1, Esp. cbn [obind]. unfold attr_of. rewrite Opt. cbn [obind]. rewrite Ek. cbn [obind]. unfold del_def. rewrite G2, Eth. cbn [option_map obind].
    unfold drop_import, def_of. rewrite dget_filter_key, G2, Esp. destruct (str_eqb_spec (lower parent) (lower head)) as [K|_]; [contradiction|]. cbn [option_map obind]. eexists. split; [reflexivity|]. split.
    - rewrite map_map. rewrite (map_ext _ fst) by (intros [k t]; cbn [fst snd]; now destruct (str_eqb k (lower parent))). apply NoDup_map_filter. unfold reparent. rewrite map_map. rewrite (map_ext _ fst) by (intros [k t]; cbn [fst snd]; now destruct (smem k kids)). apply W1.
    - intros a. rewrite (dget_map_keep _ (fun k t => if str_eqb k (lower parent) then strip t else t)) by (intros k t; cbn [fst snd]; now destruct (str_eqb k (lower parent))). rewrite dget_filter_key, G2. destruct (str_eqb a (lower head)); [reflexivity|]. destruct (the_source a); reflexivity.
  Qed.
  Lemma the_source_spec a t : a <> lower head -> (the_source a = Some t <-> source d from head a t).
  Proof.
    intros Na. unfold the_source, source. destruct (dget str_eqb a d) as [t'|] eqn:E.
    - pose proof E as E'. apply (defs_dget _ _ _ (w_keys _ Wd)) in E'. split; [intros K; injection K as ->; now left|]. intros [H|[H _]]; [apply (defs_dget _ _ _ (w_keys _ Wd)) in H; congruence|]. elim H. apply in_map_iff. now exists (a, t').
    - apply dget_none_keys in E. assert (smem a (map lower frames) = true <-> under from head a /\ In a (map fst from)) as S.
      { rewrite smem_spec, in_map_iff. split.
        - intros (b & <- & Hb). apply frames_in in Hb. destruct (under_key b Hb) as [->|Kb]; [now elim Na|]. rewrite (key_lower _ _ Wf Kb). now split.
        - intros [U K]. exists a. split; [now apply (key_lower from)|now apply frames_in]. }
      split.
      + destruct (smem a (map lower frames)); [|discriminate]. intros K. right. split; [exact E|]. split; [now apply (defs_dget _ _ _ (w_keys _ Wf))|]. now apply S.
      + intros [H|(_ & H & U)]; [elim E; apply in_map_iff; now exists (a, t)|]. rewrite (proj2 S) by (split; [exact U|apply in_map_iff; now exists (a, t)]). now apply (defs_dget _ _ _ (w_keys _ Wf)).
  Qed.
  Lemma renamed_moved a t : moved head m (lower parent) a t (if str_eqb a (lower parent) then strip (renamed a t) else renamed a t).
  Proof.
    assert (forall x, lower x <> u "_import.get" -> tget x (if str_eqb a (lower parent) then strip (renamed a t) else renamed a t) = tget x (renamed a t)) as G.
    { intros x N. destruct (str_eqb a (lower parent)); [|reflexivity]. rewrite strip_get. destruct (str_eqb_spec (lower x) (u "_import.get")); [contradiction|reflexivity]. }
    split; [|split; [|split]].
    - intros x N1 N2. rewrite (G x N1). unfold renamed. destruct (match tget a_category t with Some (VStr s) => _ | _ => _ end); [|reflexivity]. rewrite set_category_get. destruct (str_eqb_spec (lower x) a_category); [contradiction|reflexivity].
    - intros (s & E & L). rewrite G by (intros K; vm_compute in K; discriminate). unfold renamed. change (tget a_category t = Some (VStr s)) in E. rewrite E, L, str_eqb_refl. apply set_category_get.
    - intros N. rewrite G by (intros K; vm_compute in K; discriminate). unfold renamed. destruct (tget a_category t) as [[s| | | | |]|] eqn:E; try reflexivity. destruct (str_eqb_spec (lower s) (lower head)) as [L|L]; [|reflexivity]. elim N. exists s. now split.
    - destruct (str_eqb a (lower parent)); [apply (strip_get _ (u "_import.get"))|]. unfold renamed. destruct (match tget a_category t with Some (VStr s) => _ | _ => _ end); [|reflexivity]. apply (set_category_get m t (u "_import.get")).
  Qed.
End HeadToHead.
Theorem full_import_ok n d from parent target head m height : well_formed d -> well_formed from -> acyclic from height -> ids_are_keys from ->
  lower head = lower target -> category from (lower head) -> height (lower head) < n -> head <> [] ->
  has d (lower parent) a_class (u "Head") -> has d (lower parent) a_object m -> has from (lower head) a_class (u "Head") -> has from (lower head) a_object head -> ~ In (lower head) (map fst d) ->
  exists d2, full_import n d parent from target = Ret d2 /\ NoDup (map fst d2)
    /\ (forall a t', In (a, t') d2 -> a <> lower head /\ exists t, source d from head a t /\ moved head m (lower parent) a t t')
    /\ (forall a t, a <> lower head -> source d from head a t -> exists t', In (a, t') d2 /\ moved head m (lower parent) a t t').
Proof.
  intros Wd Wf Af If Lh Ch Ht Nh H1 H2 H3 H4 Hn. destruct (all_children_total n from head height Wf Af Ht) as (frames & Ef).
  destruct (full_import_get n d from parent target head m height Wd Wf Af If Lh Ch Ht Nh frames Ef) as (d2 & E & N & G).
  - destruct H1 as (t & H1 & _). apply (defs_dget _ _ _ (w_keys _ Wd)) in H1. rewrite H1. discriminate.
  - intros t Et. apply (defs_dget _ _ _ (w_keys _ Wd)) in Et. destruct H1 as (t1 & H1 & K1), H2 as (t2 & H2 & K2). apply (defs_dget _ _ _ (w_keys _ Wd)) in Et, H1, H2. rewrite Et in H1, H2. injection H1 as <-. injection H2 as <-. split; [now apply veq_text_spec|exact K2].
  - intros t Et. rewrite <- Lh in Et. apply (defs_dget _ _ _ (w_keys _ Wf)) in Et. destruct H3 as (t1 & H3 & K1), H4 as (t2 & H4 & K2). apply (defs_dget _ _ _ (w_keys _ Wf)) in Et, H3, H4. rewrite Et in H3, H4. injection H3 as <-. injection H4 as <-. split; [now apply veq_text_spec|exact K2].
  - exact Hn.
  - exists d2. split; [exact E|]. split; [exact N|]. split.
    + intros a t' H. apply (defs_dget _ _ _ N) in H. rewrite G in H. destruct (str_eqb_spec a (lower head)) as [->|Na]; [discriminate|]. split; [exact Na|]. destruct (the_source d from frames a) as [t|] eqn:Es; [|discriminate]. exists t. split; [now apply (the_source_spec n d from target head height Wd Wf Lh Ch Ht Nh frames Ef a t Na)|]. injection H as <-. apply renamed_moved.
    + intros a t Na S. apply (the_source_spec n d from target head height Wd Wf Lh Ch Ht Nh frames Ef a t Na) in S. eexists. split; [|apply renamed_moved]. apply (defs_dget _ _ _ N). rewrite G, S. destruct (str_eqb_spec a (lower head)) as [K|_]; [contradiction|reflexivity].
Qed.

(** The tree below the imported head is found below the importing category. *)
Theorem full_import_tree d from d2 parent head m height : well_formed from -> acyclic from height -> category from (lower head) -> head <> [] ->
  (forall a, In a (map fst from) -> ~ In a (map fst d)) ->
  (forall a t, a <> lower head -> source d from head a t -> exists t', In (a, t') d2 /\ moved head m parent a t t') ->
  forall a, under from head a -> a <> head -> under d2 m a.
Proof.
  intros Wf Af Ch Nh Dj H a U Na. apply below_under. apply under_below in U.
  assert (forall b t, In (b, t) from -> under from head b -> b <> head -> exists t', In (b, t') d2 /\ moved head m parent b t t') as Src.
  { intros b t Hb Ub Nb. apply H; [apply (under_not_head (S (height (lower head))) from head height Wf Af Ch); [lia|exact Ub|exact Nb]|]. right. split; [apply Dj; apply in_map_iff; now exists (b, t)|]. now split. }
  assert (forall b q, child from b q -> under from head b -> b <> head -> lower q <> lower head -> child d2 b q) as C1.
  { intros b q (t & Hb & K) Ub Nb Nq. destruct (Src b t Hb Ub Nb) as (t' & Hb' & M1 & M2 & M3 & M4). exists t'. split; [exact Hb'|]. rewrite M3; [exact K|]. intros (s & E & L). destruct K as [(s' & E' & L')|(E' & _)]; congruence. }
  assert (forall b, child from b head -> under from head b -> b <> head -> child d2 b m) as C2.
  { intros b (t & Hb & K) Ub Nb. destruct (Src b t Hb Ub Nb) as (t' & Hb' & M1 & M2 & M3 & M4). exists t'. split; [exact Hb'|]. left. exists m. split; [|reflexivity]. apply M2. destruct K as [K|[_ K]]; [exact K|]. destruct head; [now elim Nh|discriminate]. }
  assert (forall b, category from b -> under from head b -> b <> head -> category d2 b) as C3.
  { intros b (t & Hb & K) Ub Nb. destruct (Src b t Hb Ub Nb) as (t' & Hb' & M1 & _). exists t'. split; [exact Hb'|]. rewrite M1; [exact K| |]; intros E; vm_compute in E; discriminate. }
  revert Na. induction U as [|q b U IH Hq Hc]; intros Nb; [now elim Nb|].
  assert (under from head b) as Ub by (apply below_under; now apply (bo_child from head q)).
  assert (q = head \/ q <> head) as [->|Nq] by (destruct (str_eqb_spec q head); auto).
  - apply (bo_child d2 m m); [constructor|now left|]. now apply C2.
  - apply (bo_child d2 m q); [now apply IH| |].
    + right. apply C3; [destruct Hq as [->|Hq]; [now elim Nq|exact Hq]|now apply below_under|exact Nq].
    + apply C1; auto. assert (In q (map fst from)) as Kq by (inversion U; subst; [now elim Nq|now apply (child_key from q q0)]). rewrite (key_lower _ _ Wf Kq). apply (under_not_head (S (height (lower head))) from head height Wf Af Ch); [lia|now apply below_under|exact Nq].
Qed.
Lemma with_id_none d i : (forall k t, In (k, t) d -> exists j, tget a_defid t = Some (VStr j) /\ j <> i) -> with_id d i = Ret [].
Proof.
  induction d as [|[k t] d IH]; intros H; [reflexivity|]. cbn [with_id]. destruct (H k t (or_introl eq_refl)) as (j & E & N). rewrite E, IH by (intros k' t' K; apply (H k' t'); now right). cbn [obind]. destruct (veq_text (Some (VStr j)) i) eqn:V; [|reflexivity]. apply veq_text_spec in V. injection V as ->. now elim N.
Qed.
(** A category that is not the head can never be imported. *)
Theorem category_import_fails n d from parent target head m height : well_formed d -> well_formed from -> acyclic from height -> ids_are_keys from -> ids_are_keys d ->
  lower head = lower target -> category from (lower head) -> height (lower head) < n -> head <> [] ->
  has d (lower parent) a_object m -> has from (lower head) a_object head -> ~ has from (lower head) a_class (u "Head") -> ~ In (lower head) (map fst d) ->
  full_import n d parent from target = Raise IndexErr.
Proof.
  intros Wd Wf Af If Id Lh Ch Ht Nh (pt & Hpt & Opt) (tt & Htt & Ott) Nhd Hn. destruct (all_children_total n from head height Wf Af Ht) as (frames & Ef).
  pose proof (proj2 (defs_dget _ _ _ (w_keys _ Wd)) Hpt) as Ept. pose proof (proj2 (defs_dget _ _ _ (w_keys _ Wf)) Htt) as Ett. rewrite Lh in Ett.
  assert (is_head tt = false) as Eh by (destruct (is_head tt) eqn:E; [|reflexivity]; elim Nhd; exists tt; split; [exact Htt|now apply veq_text_spec]).
  assert (forall b, In b (remove1 str_eqb head frames) -> In b frames /\ b <> head) as Hr.
  { intros b Hb. split; [now apply (remove1_incl str_eqb str_eqb_spec) in Hb|]. intros ->. revert Hb. apply (remove1_NoDup_notin str_eqb str_eqb_spec). now apply (frames_nodup n from head height Wf Af Ch). }
  destruct (frames_ok from (remove1 str_eqb head frames)) as (fs & Efs & Kfs & Gfs); [intros b Hb; apply (frames_found n from target head height Wf Lh Ch Ht Nh frames Ef); now apply Hr|].
  assert (forall k t, In (k, t) fs -> In (k, t) from) as Ifs by (intros k t H; apply (defs_dget _ _ _ (w_keys _ Wf)); now apply Gfs).
  destruct (If _ _ Htt) as (i & Ei & Li).
  unfold full_import, def_of. rewrite Ett. cbn [obind]. unfold attr_of at 1. change (tget a_object tt = Some (VStr head)) in Ott. rewrite Ott. cbn [obind]. rewrite Ef. cbn [obind]. rewrite Ept. cbn [obind]. cbn zeta. rewrite Eh, andb_false_r. rewrite Efs. cbn [obind]. rewrite (prune_ok d from fs If Ifs). cbn [obind]. rewrite (dget_app str_eqb str_eqb_spec), Ept. cbn [obind]. unfold attr_of. change (tget a_object pt = Some (VStr m)) in Opt. rewrite Opt. cbn [obind]. change (tget a_defid tt = Some (VStr i)) in Ei. rewrite Ei. cbn [obind].
  rewrite with_id_none; [reflexivity|]. intros k t H. apply in_app_or in H. destruct H as [H|H].
  - destruct (Id k t H) as (j & Ej & Lj). exists j. split; [exact Ej|]. intros ->. apply Hn. rewrite <- Li, Lj. apply in_map_iff. now exists (k, t).
  - apply filter_In in H. destruct H as [H _]. destruct (If k t (Ifs k t H)) as (j & Ej & Lj). exists j. split; [exact Ej|]. intros ->. assert (In k (map fst fs)) as K by (apply in_map_iff; now exists (k, t)). rewrite Kfs in K. apply in_map_iff in K. destruct K as (b & Eb & Hb). apply Hr in Hb. destruct Hb as [Hb Nb]. apply (frames_in n from head Wf frames Ef) in Hb.
    destruct (under_key n from target head height Lh Ch Ht Nh b Hb) as [->|Kb]; [now elim Nb|]. rewrite (key_lower _ _ Wf Kb) in Eb. apply (under_not_head n from head height Wf Af Ch Ht b Hb Nb). congruence.
Qed.
