(** The run of all checks, and the children and dependents of an item. *)
From Coq Require Import String Ascii List NArith ZArith QArith Bool Lia Setoid Permutation.
From Verif Require Import PyBase PyFacts StarBlockModel LoopModel LoopSpec LoopProofs RegexModel NumberModel NumberSpec ValidateModel ValidateSpec ValidateProofs ValidateProofs2.
Import ListNotations.
Open Scope nat_scope.

Definition entries (k : str) (rep : report) : list (str * result) := match dget str_eqb k rep with Some l => l | None => [] end.
Definition returned (l : list (option str * str * outcome result)) : Prop := Forall (fun c => exists r, snd c = Ret r) l.

Lemma dget_dset_same {V} k (v : V) d : dget str_eqb k (dset str_eqb k v d) = Some v.
Proof.
  induction d as [|[k' v'] d IH]; cbn [dset dget]; [now rewrite str_eqb_refl|]. destruct (str_eqb_spec k k') as [->|N]; cbn [dget]; [now rewrite str_eqb_refl|]. destruct (str_eqb_spec k k'); [contradiction|exact IH].
Qed.
Lemma dget_dset_other {V} k k' (v : V) d : k <> k' -> dget str_eqb k (dset str_eqb k' v d) = dget str_eqb k d.
Proof.
  intros N. induction d as [|[k2 v2] d IH]; cbn [dset dget]; [destruct (str_eqb_spec k k'); [contradiction|reflexivity]|].
  destruct (str_eqb_spec k' k2) as [<-|N2]; cbn [dget]; [destruct (str_eqb_spec k k'); [contradiction|reflexivity]|]. destruct (str_eqb k k2); [reflexivity|exact IH].
Qed.
Lemma dkeys_dset_mem {V} k (v : V) d : dget str_eqb k d <> None -> dkeys (dset str_eqb k v d) = dkeys d.
Proof.
  unfold dkeys. induction d as [|[k' v'] d IH]; cbn [dset dget map fst]; [intros H; now elim H|]. destruct (str_eqb_spec k k') as [->|N]; cbn [map fst]; [reflexivity|]. intros H. f_equal. now apply IH.
Qed.
Lemma dget_none_keys {V} k (d : list (str * V)) : dget str_eqb k d = None <-> ~ In k (dkeys d).
Proof.
  unfold dkeys. induction d as [|[k' v'] d IH]; cbn [dget map fst In]; [split; [intros _ []|reflexivity]|]. destruct (str_eqb_spec k k') as [->|N].
  - split; [discriminate|]. intros H. elim H. now left.
  - rewrite IH. split; [intros H [K|K]; [now elim N|auto]|intros H K; apply H; now right].
Qed.
Lemma dget_app_last {V} k k' (v : V) d : dget str_eqb k (d ++ [(k', v)]) = match dget str_eqb k d with Some x => Some x | None => if str_eqb k k' then Some v else None end.
Proof. induction d as [|[k2 v2] d IH]; cbn [app dget]; [reflexivity|]. destruct (str_eqb k k2); [reflexivity|exact IH]. Qed.
Lemma entries_update k k' rep new : entries k (update_value rep k' new) = entries k rep ++ (if str_eqb k k' then new else []).
Proof.
  unfold entries, update_value. destruct (dget str_eqb k' rep) as [old|] eqn:E.
  - destruct (str_eqb_spec k k') as [->|N]; [now rewrite dget_dset_same, E|]. rewrite dget_dset_other by exact N. now rewrite app_nil_r.
  - rewrite dget_app_last. destruct (str_eqb_spec k k') as [->|N]; [now rewrite E|]. destruct (dget str_eqb k rep); now rewrite ?app_nil_r.
Qed.
Lemma update_keys rep k new : NoDup (dkeys rep) -> NoDup (dkeys (update_value rep k new)).
Proof.
  intros N. unfold update_value. destruct (dget str_eqb k rep) as [old|] eqn:E; [rewrite dkeys_dset_mem; [exact N|rewrite E; discriminate]|].
  unfold dkeys. rewrite map_app. apply NoDup_app_iff. split; [exact N|]. split; [constructor; [intros []|constructor]|]. intros x Hx [<-|[]]. now apply dget_none_keys in E.
Qed.

Lemma failures_app k a b : failures k (a ++ b) = failures k a ++ failures k b.
Proof. unfold failures. apply flat_map_app. Qed.
Lemma run_all_ok {F} (call : F -> outcome result) fs rs key : run_all call fs = Ret rs ->
  returned (map (fun f => (key, fst f, call (snd f))) fs)
  /\ forall k, failures k (map (fun f => (key, fst f, call (snd f))) fs) = match key with Some k' => if str_eqb k k' then filter failed rs else [] | None => [] end.
Proof.
  revert rs. induction fs as [|[n f] fs IH]; intros rs E; cbn [run_all] in E.
  - injection E as <-. split; [constructor|]. intros k. cbn. destruct key as [k'|]; [now destruct (str_eqb k k')|reflexivity].
  - destruct (call f) as [x|] eqn:Ex; [|discriminate]. cbn [obind] in E. destruct (run_all call fs) as [xs|]; [|discriminate]. cbn [obind] in E. injection E as <-.
    destruct (IH xs eq_refl) as [R Fk]. cbn [map fst snd]. split; [constructor; [cbn [snd]; rewrite Ex; now exists x|exact R]|]. intros k.
    change (failures k ((key, n, call f) :: map (fun f0 => (key, fst f0, call (snd f0))) fs)) with (failures k ([(key, n, call f)] ++ map (fun f0 => (key, fst f0, call (snd f0))) fs)).
    rewrite failures_app, Fk. unfold failures. cbn [flat_map]. rewrite Ex, app_nil_r. destruct key as [k'|]; [|reflexivity]. cbn [filter]. destruct x as [| |v b]; cbn [failed snd]; [reflexivity|reflexivity|]. now destruct (str_eqb k k').
Qed.
Lemma run_all_total {F} (call : F -> outcome result) fs key : returned (map (fun f => (key, fst f, call (snd f))) fs) -> exists rs, run_all call fs = Ret rs.
Proof.
  induction fs as [|[n f] fs IH]; intros R; [now exists []|]. cbn [map fst snd] in R. inversion R as [|? ? [x Hx] R']; subst. cbn [snd] in Hx.
  destruct (IH R') as (rs & E). cbn [run_all]. rewrite Hx, E. cbn [obind]. now eexists.
Qed.
Definition item_calls (ks : checks) (t items : table) : list (option str * str * outcome result) :=
  flat_map (fun kv => map (fun f => (Some (fst kv), fst f, snd f (fst kv) (snd kv))) (k_item ks) ++ map (fun f => (Some (fst kv), fst f, snd f (fst kv) (snd kv) t)) (k_global ks)) items.
Definition loop_calls (ks : checks) (loops : list (list str)) : list (option str * str * outcome result) :=
  flat_map (fun cols => map (fun f => (hd_error cols, fst f, snd f cols)) (k_loop ks)) loops.
Lemma calls_split ks t loops : calls ks t loops = item_calls ks t t ++ loop_calls ks loops ++ map (fun f => (Some (u "whole_block"), fst f, snd f t)) (k_block ks).
Proof. reflexivity. Qed.
Lemma run_items_ok ks t items : forall acc rep, run_items ks t items acc = Ret rep -> NoDup (dkeys acc) ->
  NoDup (dkeys rep) /\ returned (item_calls ks t items) /\ forall k, filter failed (entries k rep) = filter failed (entries k acc) ++ failures k (item_calls ks t items).
Proof.
  induction items as [|[key v] items IH]; intros acc rep E N; cbn [run_items] in E.
  - injection E as <-. split; [exact N|]. split; [constructor|]. intros k. cbn. now rewrite app_nil_r.
  - destruct (run_all (fun f => f key v) (k_item ks)) as [a|] eqn:Ea; [|discriminate]. cbn [obind] in E. destruct (run_all (fun f => f key v t) (k_global ks)) as [g|] eqn:Eg; [|discriminate]. cbn [obind] in E.
    destruct (run_all_ok _ _ _ (Some key) Ea) as [Ra Fa]. destruct (run_all_ok _ _ _ (Some key) Eg) as [Rg Fg].
    destruct (IH _ _ E (update_keys _ _ _ (update_keys _ _ _ N))) as (N' & R & Fk). split; [exact N'|].
    unfold item_calls. cbn [flat_map fst snd]. split; [apply Forall_app; split; [apply Forall_app; now split|exact R]|].
    intros k. rewrite Fk, !entries_update, !filter_app, !failures_app, Fa, Fg, <- !app_assoc. f_equal. destruct (str_eqb k key); reflexivity.
Qed.
Lemma run_loops_ok ks loops : forall acc rep, run_loops ks loops acc = Ret rep -> NoDup (dkeys acc) ->
  NoDup (dkeys rep) /\ Forall (fun l => l <> []) loops /\ returned (loop_calls ks loops) /\ forall k, filter failed (entries k rep) = filter failed (entries k acc) ++ failures k (loop_calls ks loops).
Proof.
  induction loops as [|cols loops IH]; intros acc rep E N; cbn [run_loops] in E.
  - injection E as <-. split; [exact N|]. split; [constructor|]. split; [constructor|]. intros k. cbn. now rewrite app_nil_r.
  - destruct cols as [|c cols]; [discriminate|]. destruct (run_all (fun f => f (c :: cols)) (k_loop ks)) as [a|] eqn:Ea; [|discriminate]. cbn [obind] in E.
    destruct (run_all_ok _ _ _ (Some c) Ea) as [Ra Fa]. destruct (IH _ _ E (update_keys _ _ _ N)) as (N' & L & R & Fk). split; [exact N'|].
    unfold loop_calls. cbn [flat_map hd_error]. split; [constructor; [discriminate|exact L]|]. split; [apply Forall_app; now split|].
    intros k. rewrite Fk, !entries_update, !filter_app, !failures_app, Fa, <- !app_assoc. f_equal. destruct (str_eqb k c); reflexivity.
Qed.
Lemma prune_entries rep k : NoDup (dkeys rep) -> entries k (prune rep) = filter failed (entries k rep).
Proof.
  induction rep as [|[key l] rep IH]; intros N; [reflexivity|]. unfold dkeys in N. cbn [map fst] in N. inversion N as [|? ? H1 H2]; subst. specialize (IH H2).
  unfold prune. cbn [flat_map fst snd]. change (flat_map _ rep) with (prune rep). unfold entries at 2. cbn [dget]. destruct (str_eqb_spec k key) as [->|Nk].
  - destruct (filter failed l) as [|x y] eqn:El; cbn [app]; [|unfold entries; cbn [dget]; now rewrite str_eqb_refl].
    rewrite IH. unfold entries. apply dget_none_keys in H1. now rewrite H1.
  - destruct (filter failed l) as [|x y] eqn:El; cbn [app]; [exact IH|]. unfold entries at 1. cbn [dget]. destruct (str_eqb_spec k key); [contradiction|exact IH].
Qed.
Lemma prune_In rep k l : In (k, l) (prune rep) -> l <> [] /\ In k (dkeys rep).
Proof.
  unfold prune. rewrite in_flat_map. intros ((key & l0) & H1 & H2). cbn [fst snd] in H2. destruct (filter failed l0) eqn:E; [destruct H2|]. destruct H2 as [H2|[]]. injection H2 as <- <-. split; [discriminate|].
  unfold dkeys. apply in_map_iff. now exists (key, l0).
Qed.
Lemma prune_keys rep : NoDup (dkeys rep) -> NoDup (dkeys (prune rep)).
Proof.
  induction rep as [|[key l] rep IH]; intros N; [constructor|]. unfold dkeys in N. cbn [map fst] in N. inversion N as [|? ? H1 H2]; subst. specialize (IH H2).
  unfold prune. cbn [flat_map fst snd]. change (flat_map _ rep) with (prune rep). destruct (filter failed l) as [|x y]; cbn [app]; [exact IH|]. unfold dkeys in *. cbn [map fst]. constructor; [|exact IH].
  intros H. apply in_map_iff in H. destruct H as ((k' & l') & E & Hin). cbn [fst] in E. subst k'. apply prune_In in Hin. now apply H1.
Qed.
Lemma prune_nil rep : NoDup (dkeys rep) -> (prune rep = [] <-> forall k, filter failed (entries k rep) = []).
Proof.
  intros N. split.
  - intros E k. rewrite <- (prune_entries rep k N), E. reflexivity.
  - intros H. destruct (prune rep) as [|[k l] r] eqn:E; [reflexivity|]. exfalso. destruct (prune_In rep k l) as [Hl _]; [rewrite E; now left|]. apply Hl. specialize (H k). rewrite <- (prune_entries rep k N), E in H. unfold entries in H. cbn [dget] in H. rewrite str_eqb_refl in H. exact H.
Qed.
Definition fails (c : option str * str * outcome result) : Prop := exists v b, snd c = Ret (RFalse v b).
Lemma failures_nil l : Forall (fun c => fst (fst c) <> None) l -> ((forall k, failures k l = []) <-> forall c, In c l -> ~ fails c).
Proof.
  intros Hk. split.
  - intros H c Hc (v & b & E). rewrite Forall_forall in Hk. specialize (Hk c Hc). destruct c as [[[key|] n] o]; [|now elim Hk]. cbn [snd] in E. subst o.
    assert (In (n, RFalse v b) (failures key l)) as K. { unfold failures. apply in_flat_map. exists (Some key, n, Ret (RFalse v b)). split; [exact Hc|]. rewrite str_eqb_refl. now left. }
    rewrite H in K. destruct K.
  - intros H k. unfold failures. destruct (flat_map _ l) as [|x y] eqn:E; [reflexivity|]. exfalso. assert (In x (failures k l)) as K by (unfold failures; rewrite E; now left).
    unfold failures in K. apply in_flat_map in K. destruct K as (c & Hc & Hx). apply (H c Hc). destruct c as [[[key|] n] [[| |v b]|]]; try destruct Hx. now exists v, b.
Qed.
Lemma item_keys ks t items : Forall (fun c => fst (fst c) <> None) (item_calls ks t items).
Proof.
  apply Forall_forall. intros c Hc. apply in_flat_map in Hc. destruct Hc as (kv & _ & Hc). apply in_app_or in Hc. destruct Hc as [Hc|Hc]; apply in_map_iff in Hc; destruct Hc as (f & <- & _); discriminate.
Qed.
Lemma loop_keys ks loops : Forall (fun l => l <> []) loops -> Forall (fun c => fst (fst c) <> None) (loop_calls ks loops).
Proof.
  intros H. rewrite Forall_forall in *. intros c Hc. apply in_flat_map in Hc. destruct Hc as (l & Hl & Hc). apply in_map_iff in Hc. destruct Hc as (f & <- & _). specialize (H l Hl). destruct l; [now elim H|discriminate].
Qed.
Theorem run_ok ks t loops valid rep : run_data_checks ks t loops = Ret (valid, rep) ->
  returned (calls ks t loops) /\ (valid = true <-> forall c, In c (calls ks t loops) -> ~ fails c)
  /\ (valid = true <-> rep = []) /\ NoDup (dkeys rep) /\ (forall k, entries k rep = failures k (calls ks t loops)) /\ (forall k l, In (k, l) rep -> l <> []).
Proof.
  unfold run_data_checks. intros E. destruct (run_items ks t t []) as [r1|] eqn:E1; [|discriminate]. cbn [obind] in E. destruct (run_loops ks loops r1) as [r2|] eqn:E2; [|discriminate]. cbn [obind] in E.
  destruct (run_all (fun f => f t) (k_block ks)) as [b|] eqn:E3; [|discriminate]. cbn [obind] in E. cbn zeta in E.
  destruct (run_items_ok _ _ _ _ _ E1 (NoDup_nil _)) as (N1 & R1 & F1). destruct (run_loops_ok _ _ _ _ E2 N1) as (N2 & L & R2 & F2). destruct (run_all_ok _ _ _ (Some (u "whole_block")) E3) as [R3 F3].
  set (r3 := update_value r2 (u "whole_block") b) in *. assert (NoDup (dkeys r3)) as N3 by now apply update_keys.
  assert (forall k, filter failed (entries k r3) = failures k (calls ks t loops)) as F.
  { intros k. unfold r3. rewrite entries_update, filter_app, F2, F1, calls_split, !failures_app, F3, <- app_assoc. cbn [app]. unfold entries at 1. cbn [dget filter app]. do 2 f_equal. now destruct (str_eqb k _). }
  injection E as <- <-. rewrite calls_split at 1. split; [apply Forall_app; split; [exact R1|apply Forall_app; now split]|].
  assert (Forall (fun c => fst (fst c) <> None) (calls ks t loops)) as K.
  { rewrite calls_split. apply Forall_app. split; [apply item_keys|]. apply Forall_app. split; [now apply loop_keys|]. apply Forall_forall. intros c Hc. apply in_map_iff in Hc. destruct Hc as (f & <- & _). discriminate. }
  assert (prune r3 = [] <-> forall c, In c (calls ks t loops) -> ~ fails c) as P.
  { rewrite (prune_nil _ N3), <- (failures_nil _ K). split; intros H k; specialize (H k); rewrite F in *; exact H. }
  split; [rewrite <- P; destruct (prune r3); split; try reflexivity; discriminate|]. split; [destruct (prune r3); split; try reflexivity; discriminate|].
  split; [now apply prune_keys|]. split; [intros k; now rewrite (prune_entries _ _ N3)|]. intros k l Hl. now apply prune_In in Hl.
Qed.
Lemma run_items_total ks t items : returned (item_calls ks t items) -> forall acc, exists rep, run_items ks t items acc = Ret rep.
Proof.
  induction items as [|[key v] items IH]; intros R acc; [now exists acc|]. unfold item_calls in R. cbn [flat_map fst snd] in R. apply Forall_app in R. destruct R as [R R']. apply Forall_app in R. destruct R as [Ra Rg].
  destruct (run_all_total (fun f => f key v) (k_item ks) (Some key) Ra) as (a & Ea). destruct (run_all_total (fun f => f key v t) (k_global ks) (Some key) Rg) as (g & Eg).
  cbn [run_items]. rewrite Ea, Eg. cbn [obind]. now apply IH.
Qed.
Lemma run_loops_total ks loops : Forall (fun l => l <> []) loops -> returned (loop_calls ks loops) -> forall acc, exists rep, run_loops ks loops acc = Ret rep.
Proof.
  induction loops as [|cols loops IH]; intros L R acc; [now exists acc|]. inversion L as [|? ? Hc L']; subst. unfold loop_calls in R. cbn [flat_map] in R. apply Forall_app in R. destruct R as [Ra R'].
  destruct (run_all_total (fun f => f cols) (k_loop ks) _ Ra) as (a & Ea). cbn [run_loops]. destruct cols as [|c cols]; [now elim Hc|]. rewrite Ea. cbn [obind]. now apply IH.
Qed.
Theorem run_total ks t loops : returned (calls ks t loops) -> Forall (fun l => l <> []) loops -> exists valid rep, run_data_checks ks t loops = Ret (valid, rep).
Proof.
  rewrite calls_split. intros R L. apply Forall_app in R. destruct R as [R1 R]. apply Forall_app in R. destruct R as [R2 R3].
  destruct (run_items_total _ _ _ R1 []) as (r1 & E1). destruct (run_loops_total _ _ L R2 r1) as (r2 & E2). destruct (run_all_total (fun f => f t) (k_block ks) _ R3) as (b & E3).
  unfold run_data_checks. rewrite E1. cbn [obind]. rewrite E2. cbn [obind]. rewrite E3. cbn [obind]. eexists _, _. reflexivity.
Qed.
Lemma calls_incl ks ks' t loops loops' c : incl (k_item ks) (k_item ks') -> incl (k_global ks) (k_global ks') -> incl (k_loop ks) (k_loop ks') -> incl (k_block ks) (k_block ks') -> incl loops loops' ->
  In c (calls ks t loops) -> In c (calls ks' t loops').
Proof.
  intros P1 P2 P3 P4 P5 H. unfold calls in *. rewrite !in_app_iff, !in_flat_map in *. destruct H as [(kv & Hk & H)|[(l & Hl & H)|H]].
  - left. exists kv. split; [exact Hk|]. rewrite in_app_iff, !in_map_iff in *. destruct H as [(f & E & H)|(f & E & H)]; [left|right]; exists f; (split; [exact E|]); auto.
  - right. left. exists l. split; [now apply P5|]. rewrite !in_map_iff in *. destruct H as (f & E & H). exists f. split; [exact E|auto].
  - right. right. rewrite !in_map_iff in *. destruct H as (f & E & H). exists f. split; [exact E|auto].
Qed.
(** The order of the checks and of the loops does not matter for the verdict. *)
Theorem run_order ks ks' t loops loops' valid valid' rep rep' :
  Permutation (k_item ks) (k_item ks') -> Permutation (k_global ks) (k_global ks') -> Permutation (k_loop ks) (k_loop ks') -> Permutation (k_block ks) (k_block ks') -> Permutation loops loops' ->
  run_data_checks ks t loops = Ret (valid, rep) -> run_data_checks ks' t loops' = Ret (valid', rep') -> valid = valid'.
Proof.
  intros P1 P2 P3 P4 P5 E E'. destruct (run_ok _ _ _ _ _ E) as (_ & V & _). destruct (run_ok _ _ _ _ _ E') as (_ & V' & _).
  assert (forall A (l l' : list A), Permutation l l' -> incl l l') as I by (intros A l l' P x; now apply Permutation_in).
  assert (valid = true <-> valid' = true) as W.
  { rewrite V, V'. split; intros H c Hc; apply H; revert Hc; apply calls_incl; apply I; assumption || (apply Permutation_sym; assumption). }
  destruct valid, valid'; try reflexivity; [symmetry|]; now apply W.
Qed.

(** ** Children *)
Definition child_fine (parents : list value) (whole prov : table) (c : str) : Prop :=
  forall cv vs, first_of (tget c prov) (tget c whole) = Some cv -> held cv vs -> Forall (listed parents) vs.
Definition readable (whole prov : table) (c : str) : Prop := forall cv, first_of (tget c prov) (tget c whole) = Some cv -> exists vs, held cv vs.
Lemma held_unique v a b : held v a -> held v b -> a = b.
Proof. intros H1 H2. inversion H1; subst; inversion H2; reflexivity. Qed.
Lemma check_children_ok parents whole prov names : Forall (readable whole prov) names ->
  exists r, check_children parents whole prov names = Ret r
  /\ (r = RTrue <-> Forall (child_fine parents whole prov) names)
  /\ (r <> RTrue -> exists before c after cv vs bad, names = before ++ c :: after /\ Forall (child_fine parents whole prov) before
       /\ first_of (tget c prov) (tget c whole) = Some cv /\ held cv vs /\ offenders (listed parents) vs bad /\ bad <> [] /\ r = RFalse bad [c]).
Proof.
  induction names as [|c names IH]; intros R; cbn [check_children].
  - exists RTrue. split; [reflexivity|]. split; [split; [constructor|reflexivity]|]. intros K; now elim K.
  - inversion R as [|? ? Hc R']; subst. destruct (IH R') as (r & E & T & F).
    assert (child_fine parents whole prov c -> check_children parents whole prov names = Ret r -> exists r, check_children parents whole prov names = Ret r
      /\ (r = RTrue <-> Forall (child_fine parents whole prov) (c :: names)) /\ (r <> RTrue -> exists before c' after cv vs bad, c :: names = before ++ c' :: after /\ Forall (child_fine parents whole prov) before
       /\ first_of (tget c' prov) (tget c' whole) = Some cv /\ held cv vs /\ offenders (listed parents) vs bad /\ bad <> [] /\ r = RFalse bad [c'])) as Step.
    { intros Fine _. exists r. split; [exact E|]. split.
      - rewrite T. split; [intros H; now constructor|intros H; now inversion H].
      - intros K. destruct (F K) as (before & c' & after & cv & vs & bad & -> & H1 & H2). exists (c :: before), c', after, cv, vs, bad. split; [reflexivity|]. split; [now constructor|exact H2]. }
    destruct (first_of (tget c prov) (tget c whole)) as [cv|] eqn:Ec.
    + destruct (Hc cv Ec) as (vs & Hv). rewrite (held_list _ _ Hv). cbn [obind]. pose proof (pc_offenders parents vs) as O. destruct (check_parent_child parents vs) as [|x bad] eqn:Eb.
      * apply Step; [|exact E]. intros cv' vs' E' Hv'. rewrite Ec in E'. injection E' as <-. rewrite <- (held_unique _ _ _ Hv Hv'). now apply offenders_nil.
      * exists (RFalse (x :: bad) [c]). split; [reflexivity|]. split.
        -- split; [discriminate|]. intros H. inversion H as [|? ? H1 _]; subst. specialize (H1 cv vs Ec Hv). assert (offenders (listed parents) vs []) as O' by (clear -H1; induction H1; [constructor|now apply of_good]).
           pose proof (offenders_unique _ _ _ _ O O'). discriminate.
        -- intros _. exists [], c, names, cv, vs, (x :: bad). split; [reflexivity|]. split; [constructor|]. repeat (split; [assumption||discriminate|]). reflexivity.
    + apply Step; [|exact E]. intros cv' vs' E'. rewrite Ec in E'. discriminate.
Qed.
Definition child_names (d : cifdic) (def : table) (cs : list str) : Prop :=
  exists x, tget (d_child_spec d) def = Some x /\ (x = VList (map VStr cs) \/ x = VSL (map VStr cs) \/ exists k, x = VStr k /\ cs = [k]).
Theorem child_ok d name v def cs alts whole prov globals pvs : dic_get d name = Ret def -> child_names d def cs -> tget name globals = None -> alternates_of d cs = Ret alts -> held v pvs ->
  Forall (readable whole prov) (cs ++ alts) ->
  exists r, validate_child d name v whole prov globals = Ret r
  /\ (r = RTrue <-> Forall (child_fine pvs whole prov) (cs ++ alts))
  /\ (r <> RTrue -> exists before c after cv vs bad, cs ++ alts = before ++ c :: after /\ Forall (child_fine pvs whole prov) before
       /\ first_of (tget c prov) (tget c whole) = Some cv /\ held cv vs /\ offenders (listed pvs) vs bad /\ bad <> [] /\ r = RFalse bad [c]).
Proof.
  intros Hd (x & Hx & Hn) Hg Ha Hv R. unfold validate_child. apply dic_get_dget in Hd. rewrite Hd, Hx. unfold tmem. rewrite Hg.
  assert (names_of x = Ret cs) as ->. { unfold names_of. destruct Hn as [->|[->|(k & -> & ->)]]; cbn [listify obind]; [apply texts_map|apply texts_map|reflexivity]. }
  cbn [obind]. rewrite (held_list _ _ Hv). cbn [obind]. rewrite Ha. cbn [obind]. now apply check_children_ok.
Qed.

(** ** Dependents *)
Definition satisfied (d : cifdic) (whole prov globals : table) (a : str) : Prop :=
  present whole prov globals a \/ exists alts b, get_alternates d a false = Ret alts /\ In b alts /\ present whole prov globals b.
Lemma no_alternate_ok d whole prov globals l : (forall a, In a l -> exists alts, get_alternates d a false = Ret alts) -> (forall a, In a l -> ~ present whole prov globals a) ->
  exists bad, no_alternate d (tkeys whole ++ tkeys prov ++ tkeys globals) l = Ret bad /\ offenders (satisfied d whole prov globals) l bad.
Proof.
  induction l as [|a l IH]; intros Ha Hp; [exists []; split; [reflexivity|constructor]|]. destruct (Ha a (or_introl eq_refl)) as (alts & Ea).
  destruct IH as (bad & E & O); [intros b Hb; apply Ha; now right|intros b Hb; apply Hp; now right|]. cbn [no_alternate]. rewrite Ea, E. cbn [obind].
  destruct (filter (fun x => smem x (tkeys whole ++ tkeys prov ++ tkeys globals)) alts) as [|y r] eqn:Ef.
  - exists (a :: bad). split; [reflexivity|]. apply of_bad; [|exact O]. intros [H|(alts' & b & E' & Hb & Pb)]; [now apply (Hp a (or_introl eq_refl))|]. rewrite Ea in E'. injection E' as <-.
    rewrite filter_nil in Ef. apply present_smem in Pb. rewrite (Ef b Hb) in Pb. discriminate.
  - exists bad. split; [reflexivity|]. apply of_good; [|exact O]. right. exists alts, y. split; [exact Ea|]. assert (In y (y :: r)) as K by now left. rewrite <- Ef in K. apply filter_In in K. destruct K as [K1 K2]. split; [exact K1|]. now apply present_smem.
Qed.
Lemma offenders_skip {A} (P : A -> Prop) (q : A -> bool) l bad : (forall x, In x l -> q x = false -> P x) -> offenders P (filter q l) bad -> offenders P l bad.
Proof.
  revert bad. induction l as [|x l IH]; intros bad H O; [exact O|]. cbn [filter] in O. destruct (q x) eqn:E.
  - inversion O; subst; [apply of_bad|apply of_good]; auto; apply IH; auto; intros y Hy; apply H; now right.
  - apply of_good; [apply H; [now left|exact E]|]. apply IH; [intros y Hy; apply H; now right|exact O].
Qed.
Definition dependent_names (d : cifdic) (def : table) (cs : list str) : Prop :=
  exists x, tget (d_dep_spec d) def = Some x /\ (x = VList (map VStr cs) \/ x = VSL (map VStr cs) \/ exists k, x = VStr k /\ cs = [k]).
Theorem dependents_ok d name def deps whole prov globals : dic_get d name = Ret def -> dependent_names d def deps -> (forall a, In a deps -> exists alts, get_alternates d a false = Ret alts) ->
  exists r bad, validate_dependents d name whole prov globals = Ret r /\ offenders (satisfied d whole prov globals) deps bad /\ (bad = [] -> r = RTrue) /\ (bad <> [] -> r = RFalse [] bad).
Proof.
  intros Hd (x & Hx & Hn) Ha. unfold validate_dependents. apply dic_get_dget in Hd. rewrite Hd, Hx.
  assert (names_of x = Ret deps) as ->. { unfold names_of. destruct Hn as [->|[->|(k & -> & ->)]]; cbn [listify obind]; [apply texts_map|apply texts_map|reflexivity]. }
  cbn [obind]. cbn zeta. destruct (no_alternate_ok d whole prov globals (filter (fun a => negb (smem a (tkeys whole ++ tkeys prov ++ tkeys globals))) deps)) as (bad & E & O).
  - intros a H. apply filter_In in H. now apply Ha.
  - intros a H. apply filter_In in H. destruct H as [_ H]. intros P. apply present_smem in P. rewrite P in H. discriminate.
  - rewrite E. cbn [obind]. exists (match bad with [] => RTrue | _ => RFalse [] bad end), bad. split; [reflexivity|]. split; [|destruct bad; split; try reflexivity; try discriminate; intros K; now elim K].
    revert O. apply offenders_skip. intros a _ H. apply negb_false_iff in H. left. now apply present_smem.
Qed.
