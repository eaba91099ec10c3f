(** Lemmas about StarBlockModel.v. *)
From Coq Require Import String Ascii List NArith ZArith Bool Lia Permutation.
From Verif Require Import PyBase PyFacts StarBlockModel StarBlockSpec.
Import ListNotations.

Lemma oitem_eqb_spec : forall a b, reflect (a = b) (oitem_eqb a b).
Proof.
  destruct a, b; cbn; try (constructor; congruence).
  - destruct (str_eqb_spec n n0); constructor; congruence.
  - destruct (Z.eqb_spec k k0); constructor; congruence.
Qed.

#[global] Hint Resolve str_eqb_spec oitem_eqb_spec Z.eqb_spec : pyspec.

(* ---------- order lists ---------- *)

Lemma order_names_app a b : order_names (a ++ b) = order_names a ++ order_names b.
Proof. apply flat_map_app. Qed.
Lemma order_loops_app a b : order_loops (a ++ b) = order_loops a ++ order_loops b.
Proof. apply flat_map_app. Qed.

Lemma order_names_In n o : In n (order_names o) <-> In (ON n) o.
Proof.
  unfold order_names. rewrite in_flat_map. split.
  - intros (x & H & I). destruct x; cbn in I; [destruct I as [->|[]]; auto|contradiction].
  - intros H. exists (ON n). cbn; auto.
Qed.

Lemma order_loops_In k o : In k (order_loops o) <-> In (OL k) o.
Proof.
  unfold order_loops. rewrite in_flat_map. split.
  - intros (x & H & I). destruct x; cbn in I; [contradiction|destruct I as [->|[]]; auto].
  - intros H. exists (OL k). cbn; auto.
Qed.

Lemma order_names_remove_OL k o : order_names (remove1 oitem_eqb (OL k) o) = order_names o.
Proof.
  induction o as [|x o IH]; cbn; [reflexivity|].
  destruct x; cbn; [f_equal; apply IH|]. destruct (Z.eqb k k0); cbn; auto.
Qed.

Lemma order_loops_remove_OL k o :
  order_loops (remove1 oitem_eqb (OL k) o) = remove1 Z.eqb k (order_loops o).
Proof.
  induction o as [|x o IH]; cbn; [reflexivity|].
  destruct x; cbn; [apply IH|]. destruct (Z.eqb k k0); cbn; [reflexivity|]. f_equal; apply IH.
Qed.

Lemma order_loops_remove_ON n o : order_loops (remove1 oitem_eqb (ON n) o) = order_loops o.
Proof.
  induction o as [|x o IH]; cbn; [reflexivity|].
  destruct x; cbn; [|f_equal; apply IH]. destruct (str_eqb n n0); cbn; auto.
Qed.

Lemma order_names_remove_ON n o :
  order_names (remove1 oitem_eqb (ON n) o) = remove1 str_eqb n (order_names o).
Proof.
  induction o as [|x o IH]; cbn; [reflexivity|].
  destruct x; cbn; [|apply IH]. destruct (str_eqb n n0); cbn; [reflexivity|]. f_equal; apply IH.
Qed.

Lemma order_names_perm a b : Permutation a b -> Permutation (order_names a) (order_names b).
Proof. intros H. now apply Permutation_flat_map. Qed.
Lemma order_loops_perm a b : Permutation a b -> Permutation (order_loops a) (order_loops b).
Proof. intros H. now apply Permutation_flat_map. Qed.

Lemma order_names_insert_OL p k o : order_names (py_insert p (OL k) o) = order_names o.
Proof.
  unfold py_insert. rewrite order_names_app. cbn. rewrite <- order_names_app.
  now rewrite firstn_skipn.
Qed.

(* ---------- has_key, find_loop, get ---------- *)

Lemma has_key_In key b : has_key key b = true <-> In (lower key) (b_keys b).
Proof. apply dmem_In. apply str_eqb_spec. Qed.

Lemma has_key_false key b : has_key key b = false <-> ~ In (lower key) (b_keys b).
Proof. apply dmem_false. apply str_eqb_spec. Qed.

Lemma find_loop_Some key b k :
  find_loop key b = Some k ->
  exists l1 names l2, b_loops b = l1 ++ (k, names) :: l2 /\ In (lower key) names
    /\ (forall kl, In kl l1 -> ~ In (lower key) (snd kl)).
Proof.
  unfold find_loop. generalize (b_loops b) as ls.
  induction ls as [|[k' ns] ls IH]; cbn [find]; [discriminate|].
  change (loop_has (lower key) (k', ns)) with (mem str_eqb (lower key) ns). destruct (mem str_eqb (lower key) ns) eqn:E.
  - cbn. intros [= ->]. exists [], ns, ls. repeat split; auto.
    apply (mem_In _ str_eqb_spec). assumption.
  - intros H. destruct (IH H) as (l1 & names & l2 & E1 & E2 & E3).
    exists ((k', ns) :: l1), names, l2. subst ls. repeat split; auto.
    intros kl [<-|I]; [cbn; apply (mem_false _ str_eqb_spec); assumption|auto].
Qed.

Lemma find_loop_None key b :
  find_loop key b = None <-> ~ In (lower key) (concat (map snd (b_loops b))).
Proof.
  unfold find_loop. generalize (b_loops b) as ls.
  induction ls as [|[k' ns] ls IH]; cbn [find]; [cbn; intuition|].
  change (loop_has (lower key) (k', ns)) with (mem str_eqb (lower key) ns).
  cbn [map concat snd]. rewrite in_app_iff.
  destruct (mem str_eqb (lower key) ns) eqn:E.
  - apply (mem_In _ str_eqb_spec) in E. cbn. split; [discriminate|tauto].
  - apply (mem_false _ str_eqb_spec) in E. rewrite IH. tauto.
Qed.

Lemma find_loop_lower key b : find_loop (lower key) b = find_loop key b.
Proof. unfold find_loop. now rewrite lower_idem. Qed.
Lemma has_key_lower key b : has_key (lower key) b = has_key key b.
Proof. unfold has_key. now rewrite lower_idem. Qed.

Lemma find_loop_ext k k' b : lower k = lower k' -> find_loop k b = find_loop k' b.
Proof. intros H. unfold find_loop. now rewrite H. Qed.
Lemma has_key_ext k k' b : lower k = lower k' -> has_key k b = has_key k' b.
Proof. intros H. unfold has_key. now rewrite H. Qed.

Lemma wf_loop_get b key k :
  WF b -> find_loop key b = Some k ->
  exists l1 names l2, b_loops b = l1 ++ (k, names) :: l2 /\ dget Z.eqb k (b_loops b) = Some names
    /\ In (lower key) names /\ ~ In k (dkeys l1) /\ ~ In k (dkeys l2).
Proof.
  intros W H. destruct (find_loop_Some _ _ _ H) as (l1 & names & l2 & E1 & E2 & E3).
  exists l1, names, l2. pose proof (wf_nums b W) as N. rewrite E1 in N.
  unfold dkeys in N. rewrite map_app in N. cbn in N.
  apply NoDup_app_iff in N as (N1 & N2 & N3). inversion N2 as [|? ? M1 M2]; subst.
  repeat split; auto.
  - rewrite E1. apply (dget_In_NoDup _ Z.eqb_spec).
    + rewrite <- E1. apply (wf_nums b W).
    + apply in_or_app; right; left; reflexivity.
  - intros I. apply (N3 _ I). now left.
Qed.

Lemma get_full_entry key b :
  get_item key b =
  if str_eqb key (u "saves") then Raise StarErr
  else match dget str_eqb (lower key) (b_data b) with
       | None => Raise KeyErr
       | Some e => entry_val e
       end.
Proof.
  unfold get_item. destruct (str_eqb key (u "saves")); [reflexivity|].
  unfold get_full. destruct (dget str_eqb (lower key) (b_data b)) as [[s v]|]; [|reflexivity].
  unfold entry_val. cbn [fst snd].
  destruct s; cbn [not_none]; try reflexivity;
    try (destruct (forallb not_none l); cbn; [reflexivity|]);
    try (destruct v as [| | |[|[]]|[|[]]|]; reflexivity).
Qed.

(* ---------- regularise ---------- *)

Section value_induction.
  Variable P : value -> Prop.
  Hypothesis HS : forall s, P (VStr s).
  Hypothesis HN : forall s, P (VNum s).
  Hypothesis H0 : P VNone.
  Hypothesis HL : forall l, Forall P l -> P (VList l).
  Hypothesis HSL : forall l, Forall P l -> P (VSL l).
  Hypothesis HD : forall d, Forall (fun kv => P (snd kv)) d -> P (VDict d).
  Fixpoint value_ind' (v : value) : P v :=
    match v with
    | VStr s => HS s
    | VNum s => HN s
    | VNone => H0
    | VList l => HL l ((fix go l : Forall P l :=
                          match l with [] => Forall_nil _ | x :: r => Forall_cons _ (value_ind' x) (go r) end) l)
    | VSL l => HSL l ((fix go l : Forall P l :=
                          match l with [] => Forall_nil _ | x :: r => Forall_cons _ (value_ind' x) (go r) end) l)
    | VDict d => HD d ((fix go d : Forall (fun kv => P (snd kv)) d :=
                          match d with [] => Forall_nil _ | x :: r => Forall_cons _ (value_ind' (snd x)) (go r) end) d)
    end.
End value_induction.

(** The list case of [regularise], named. *)
Fixpoint reg_list (l : list value) : outcome (list value * list value) :=
  match l with
  | [] => Ret ([], [])
  | x :: r =>
      match regularise x with
      | Raise e => Raise e
      | Ret (v', s') =>
          match reg_list r with
          | Raise e => Raise e
          | Ret (vs, ss) => Ret (v' :: vs, s' :: ss)
          end
      end
  end.

Lemma regularise_VList l :
  regularise (VList l) =
  match l with
  | [] => Raise ValueErr
  | _ => match reg_list l with Raise e => Raise e | Ret (vs, ss) => Ret (VList vs, VList ss) end
  end.
Proof. reflexivity. Qed.

Lemma regularise_id v : forall v' e, regularise v = Ret (v', e) -> v' = v /\ not_none e = false.
Proof.
  induction v as [s|s| |l IH|l _|d _] using value_ind'; intros v' e;
    try (cbn; intros [= <- <-]; auto; fail); try (cbn; discriminate).
  rewrite regularise_VList.
  assert (L : forall vs ss, reg_list l = Ret (vs, ss) ->
              vs = l /\ (l <> [] -> forallb not_none ss = false)).
  { induction IH as [|x r Hx Hr IHr]; cbn.
    - intros vs ss [= <- <-]. split; [reflexivity|congruence].
    - intros vs ss. destruct (regularise x) as [[v1 s1]|]; [|discriminate].
      destruct (Hx _ _ eq_refl) as [-> E].
      destruct (reg_list r) as [[vs1 ss1]|]; [|discriminate].
      intros [= <- <-]. destruct (IHr _ _ eq_refl) as [-> _].
      split; [reflexivity|]. intros _. cbn. now rewrite E. }
  destruct l as [|x r]; [discriminate|].
  destruct (reg_list (x :: r)) as [[vs ss]|]; [|discriminate].
  intros [= <- <-]. destruct (L _ _ eq_refl) as [-> E]. split; [reflexivity|].
  cbn. apply E. discriminate.
Qed.

Lemma regularise_shape v v' e : regularise v = Ret (v', e) ->
  (e = VNone /\ (forall l, v <> VList l)) \/ (exists l es, v = VList l /\ e = VList es /\ l <> []).
Proof.
  destruct v; cbn; intros H; try discriminate;
    try (injection H as <- <-; left; split; congruence).
  right. change (regularise (VList l) = Ret (v', e)) in H. rewrite regularise_VList in H.
  destruct l as [|x r]; [discriminate|].
  destruct (reg_list (x :: r)) as [[vs ss]|]; [|discriminate].
  injection H as <- <-. exists (x :: r), ss. repeat split; congruence.
Qed.

Lemma stringy_not_none v : check_stringiness v = true -> not_none v = true.
Proof.
  induction v as [s|s| |l IH|l IH|d _] using value_ind'; cbn; auto; try discriminate;
    rewrite !forallb_forall; rewrite Forall_forall in IH; auto.
Qed.

Lemma entry_val_pure v e :
  check_stringiness v = true -> entry_val (v, e) = Ret v.
Proof.
  intros H. apply stringy_not_none in H. unfold entry_val. cbn [fst snd].
  destruct v; rewrite H; reflexivity.
Qed.

Lemma entry_val_mixed v e :
  regularise v = Ret (v, e) -> entry_val (e, v) = Ret v.
Proof.
  intros H. destruct (regularise_id _ _ _ H) as [_ N].
  destruct (regularise_shape _ _ _ H) as [[-> S]|(l & es & -> & -> & S)].
  - unfold entry_val. cbn [fst snd not_none].  reflexivity.
  - unfold entry_val. cbn [fst snd]. rewrite N. reflexivity.
Qed.

Lemma entry_val_add v e :
  regularise v = Ret (v, e) ->
  entry_val (if check_stringiness v then (v, e) else (e, v)) = Ret v.
Proof.
  intros H. destruct (check_stringiness v) eqn:E.
  - now apply entry_val_pure.
  - now apply entry_val_mixed.
Qed.

(* ---------- add_item ---------- *)

(** What a successful non-prechecked AddItem does. *)
Lemma add_item_ok key val b b' :
  add_item key val false b = (b', Ret tt) ->
  exists e, check_data_name (b_max b) (b_uni b) key = Ret tt
    /\ regularise val = Ret (val, e) /\ check_item_value (b_uni b) val = Ret tt
    /\ (has_key key b = true -> b_over b = true)
    /\ b' = store_item key (fst (if check_stringiness val then (val, e) else (e, val)))
                           (snd (if check_stringiness val then (val, e) else (e, val))) b.
Proof.
  unfold add_item. destruct (check_data_name _ _ key) as [[]|]; [|discriminate].
  destruct (has_key key b && negb (b_over b)) eqn:E; [discriminate|].
  destruct (regularise val) as [[reg emp]|] eqn:R; [|discriminate].
  destruct (regularise_id _ _ _ R) as [-> _].
  destruct (check_item_value _ val) as [[]|] eqn:C; [|discriminate].
  intros H. exists emp. repeat split; auto.
  - intros K. rewrite K in E. cbn in E. now destruct (b_over b).
  - destruct (check_stringiness val); injection H as <-; reflexivity.
Qed.

(** A failing AddItem changes nothing. *)
Lemma add_item_err key val pre b b' e : add_item key val pre b = (b', Raise e) -> b' = b.
Proof.
  unfold add_item.
  destruct (if pre then Ret tt else check_data_name _ _ key) as [[]|]; [|congruence].
  destruct (_ && _); [congruence|].
  destruct pre; [discriminate|].
  destruct (regularise val) as [[reg emp]|]; [|congruence].
  destruct (check_item_value _ reg) as [[]|]; [|congruence].
  destruct (check_stringiness reg); discriminate.
Qed.

Lemma set_item_err key val b b' e : set_item key val b = (b', Raise e) -> b' = b.
Proof.
  unfold set_item. destruct (str_eqb _ _); [congruence|]. apply add_item_err.
Qed.

Lemma set_item_ok key val b b' : set_item key val b = (b', Ret tt) -> add_item key val false b = (b', Ret tt).
Proof. unfold set_item. destruct (str_eqb _ _); [discriminate|auto]. Qed.

Lemma store_dget key s v b k :
  dget str_eqb k (b_data (store_item key s v b)) =
  if str_eqb k (lower key) then Some (s, v) else dget str_eqb k (b_data b).
Proof.
  unfold store_item. cbn [b_data]. destruct (str_eqb_spec k (lower key)) as [->|n].
  - apply dget_dset_eq, str_eqb_spec.
  - apply dget_dset_neq; [apply str_eqb_spec|assumption].
Qed.

Lemma printed_In_keys b n : WF b -> (In n (printed_names b) <-> In n (b_keys b)).
Proof.
  intros W. split; intros H; (eapply Permutation_in; [|exact H]).
  - apply (wf_place b W).
  - symmetry; apply (wf_place b W).
Qed.

Lemma wf_find_loop_key b key k : WF b -> find_loop key b = Some k -> has_key key b = true.
Proof.
  intros W H. apply has_key_In. apply (printed_In_keys b _ W). unfold printed_names.
  apply in_or_app; right. destruct (find_loop key b) eqn:E; [|discriminate].
  destruct (in_dec (list_eq_dec N.eq_dec) (lower key) (concat (map snd (b_loops b)))); [assumption|].
  apply find_loop_None in n. congruence.
Qed.

Lemma store_item_wf key s v b : WF b -> WF (store_item key s v b).
Proof.
  intros W. unfold store_item.
  rewrite has_key_lower, find_loop_lower.
  destruct (has_key key b) eqn:HK.
  - (* existing name *)
    cbn [negb andb]. apply has_key_In in HK.
    assert (DK : dmem str_eqb (lower key) (b_data b) = true).
    { apply dmem_In; [apply str_eqb_spec|assumption]. }
    assert (KE : dkeys (dset str_eqb (lower key) (s, v) (b_data b)) = dkeys (b_data b)).
    { rewrite dkeys_dset by apply str_eqb_spec. now rewrite DK. }
    assert (TE : Permutation (dkeys (ddel str_eqb (lower key) (b_true b) ++ [(lower key, key)]))
                             (dkeys (b_true b))).
    { unfold dkeys at 1. rewrite map_app. cbn. fold (dkeys (ddel str_eqb (lower key) (b_true b))).
      rewrite dkeys_ddel by apply str_eqb_spec.
      rewrite <- Permutation_cons_append. apply remove1_perm; [apply str_eqb_spec|].
      eapply Permutation_in; [|exact HK]. symmetry. apply (wf_true b W). }
    destruct W as [Wk Wl Wt Wc Wp Wr Wn Wpos]. constructor; unfold printed_names, b_keys in *; cbn [b_data b_loops b_order b_true] in *;
      rewrite ?KE; auto.
    + now rewrite TE.
    + intros k t I. apply in_app_or in I as [I|I].
      * apply Wc. clear -I. induction (b_true b) as [|[k2 t2] r IH]; cbn in *; [contradiction|].
        destruct (str_eqb (lower key) k2); cbn in *; intuition.
      * cbn in I. destruct I as [[= <- <-]|[]]. reflexivity.
  - (* new name *)
    assert (FL : find_loop key b = None).
    { destruct (find_loop key b) eqn:E; [|reflexivity].
      apply (wf_find_loop_key b _ _ W) in E. congruence. }
    rewrite FL. cbn [negb andb].
    apply has_key_false in HK.
    assert (DK : dmem str_eqb (lower key) (b_data b) = false).
    { apply dmem_false; [apply str_eqb_spec|assumption]. }
    assert (KE : dkeys (dset str_eqb (lower key) (s, v) (b_data b)) = dkeys (b_data b) ++ [lower key]).
    { rewrite dkeys_dset by apply str_eqb_spec. now rewrite DK. }
    assert (TN : ddel str_eqb (lower key) (b_true b) = b_true b).
    { apply ddel_notin; [apply str_eqb_spec|]. intro I. apply HK.
      eapply Permutation_in; [|exact I]. apply (wf_true b W). }
    destruct W as [Wk Wl Wt Wc Wp Wr Wn Wpos]. constructor; unfold printed_names, b_keys in *; cbn [b_data b_loops b_order b_true] in *;
      rewrite ?KE, ?TN; auto.
    + apply NoDup_app_iff. repeat split; auto.
      * constructor; [cbn; auto|constructor].
      * cbn. intros x Hx [<-|[]]. auto.
    + intros k I. apply in_app_or in I as [I|[<-|[]]]; auto. apply lower_idem.
    + unfold dkeys at 1. rewrite map_app. cbn. apply Permutation_app_tail. assumption.
    + intros k t I. apply in_app_or in I as [I|[[= <- <-]|[]]]; auto.
    + rewrite order_names_app. cbn.
      rewrite <- Wp. rewrite <- !app_assoc. apply Permutation_app_head.
      cbn. apply Permutation_cons_append.
    + rewrite order_loops_app. cbn. now rewrite app_nil_r.
Qed.

Lemma add_item_wf key val pre b : WF b -> WF (fst (add_item key val pre b)).
Proof.
  intros W. unfold add_item.
  destruct (if pre then Ret tt else check_data_name _ _ key) as [[]|]; [|assumption].
  destruct (_ && _); [assumption|].
  destruct pre; [now apply store_item_wf|].
  destruct (regularise val) as [[reg emp]|]; [|assumption].
  destruct (check_item_value _ reg) as [[]|]; [|assumption].
  destruct (check_stringiness reg); now apply store_item_wf.
Qed.

Lemma set_item_wf key val b : WF b -> WF (fst (set_item key val b)).
Proof.
  intros W. unfold set_item. destruct (str_eqb _ _); [assumption|]. now apply add_item_wf.
Qed.

Lemma update_items_wf kvs : forall b, WF b -> WF (fst (update_items kvs b)).
Proof.
  induction kvs as [|[k v] r IH]; intros b W; cbn; [assumption|].
  pose proof (add_item_wf k v false b W) as W1.
  destruct (add_item k v false b) as [b' [|]]; cbn in *; auto.
Qed.
