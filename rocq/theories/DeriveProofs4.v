(** Which items an edit leaves alone. *)
From Coq Require Import String Ascii List NArith ZArith Bool PeanoNat Lia Permutation.
From Verif Require Import PyBase PyFacts StarBlockModel StarBlockSpec StarBlockProofs StarBlockProofs2 StarBlockProofs3 StarBlockProofs4 LoopModel ValidateModel TreeModel DeriveModel DeriveSpec DeriveProofs3.
Import ListNotations.

Definition same_at (k : str) (b b' : block) : Prop :=
  dget str_eqb k (b_data b') = dget str_eqb k (b_data b) /\ dget str_eqb k (b_true b') = dget str_eqb k (b_true b) /\ find_loop k b' = find_loop k b.
Lemma same_at_refl k b : same_at k b b.
Proof. repeat split. Qed.
Lemma same_at_trans k a b c : same_at k a b -> same_at k b c -> same_at k a c.
Proof. unfold same_at. intros (A & B & C) (D & E & F). rewrite D, E, F. auto. Qed.

Definition placed (x : str) (l : list (Z * list str)) : list (Z * bool) := map (fun kl => (fst kl, loop_has x kl)) l.
Lemma placed_find x l1 l2 : placed x l1 = placed x l2 -> option_map fst (find (loop_has x) l1) = option_map fst (find (loop_has x) l2).
Proof.
  revert l2. induction l1 as [|[k1 n1] l1 IH]; intros [|[k2 n2] l2]; cbn [placed map find]; try discriminate; auto. intros [= E1 E2 E3]. cbn [fst] in E1. rewrite E2.
  destruct (loop_has x (k2, n2)); [cbn; now rewrite E1|]. now apply IH.
Qed.
Lemma placed_dset x k n n' l : dget Z.eqb k l = Some n -> mem str_eqb x n' = mem str_eqb x n -> placed x (dset Z.eqb k n' l) = placed x l.
Proof.
  intros G M. induction l as [|[k1 n1] l IH]; [discriminate|]. cbn [dget dset] in *. destruct (Z.eqb_spec k k1) as [->|N].
  - injection G as ->. cbn [placed map]. unfold loop_has. cbn [fst snd]. now rewrite M.
  - cbn [placed map]. f_equal. now apply IH.
Qed.
Lemma mem_eq x a b : (In x a <-> In x b) -> mem str_eqb x a = mem str_eqb x b.
Proof.
  intros H. destruct (mem str_eqb x a) eqn:E; destruct (mem str_eqb x b) eqn:F; auto.
  - apply (mem_In _ str_eqb_spec), H, (mem_In _ str_eqb_spec) in E. congruence.
  - apply (mem_In _ str_eqb_spec), H, (mem_In _ str_eqb_spec) in F. congruence.
Qed.
Lemma remove1_other x y l : x <> y -> In x (remove1 str_eqb y l) <-> In x l.
Proof.
  intros N. induction l as [|z l IH]; [reflexivity|]. cbn [remove1]. destruct (str_eqb_spec y z) as [->|M]; cbn [In]; [|tauto]. split; auto. intros [<-|I]; [contradiction|exact I].
Qed.
Lemma dget_snoc {V} k k' (v : V) l : k <> k' -> dget str_eqb k (ddel str_eqb k' l ++ [(k', v)]) = dget str_eqb k l.
Proof.
  intros N. induction l as [|[k1 v1] l IH]; cbn [ddel app dget].
  - destruct (str_eqb_spec k k'); [contradiction|reflexivity].
  - destruct (str_eqb_spec k' k1) as [<-|M].
    + destruct (str_eqb_spec k k'); [contradiction|]. clear IH. induction l as [|[k2 v2] l IH]; cbn [app dget]. * destruct (str_eqb_spec k k'); [contradiction|reflexivity]. * destruct (str_eqb k k2); auto.
    + cbn [app dget]. destruct (str_eqb k k1); auto.
Qed.
Lemma store_same k key s v b : k <> lower key -> same_at k b (store_item key s v b).
Proof.
  intros N. repeat split.
  - rewrite store_dget. destruct (str_eqb_spec k (lower key)); [contradiction|reflexivity].
  - unfold store_item. cbn [b_true]. now apply dget_snoc.
Qed.
Lemma add_item_same k key v b : k <> lower key -> same_at k b (fst (add_item key v false b)).
Proof.
  intros N. destruct (add_item key v false b) as [b' [[]|e]] eqn:E; cbn [fst].
  - apply add_item_ok in E as (em & _ & _ & _ & _ & ->). now apply store_same.
  - apply add_item_err in E. subst. apply same_at_refl.
Qed.
Lemma set_item_same k key v b : k <> lower key -> same_at k b (fst (set_item key v b)).
Proof. intros N. unfold set_item. destruct (str_eqb _ _); [apply same_at_refl|]. now apply add_item_same. Qed.
Lemma dget_map_snd {K V W} (eqb : K -> K -> bool) (f : V -> W) k (l : list (K * V)) :
  dget eqb k (map (fun kv => (fst kv, f (snd kv))) l) = option_map f (dget eqb k l).
Proof. induction l as [|[k1 v1] l IH]; [reflexivity|]. cbn [map dget fst snd]. now destruct (eqb k k1). Qed.
Lemma add_loop_name_same k o n b : WF b -> lower k = k -> k <> lower n -> same_at k b (fst (add_loop_name o n b)).
Proof.
  intros W L N. unfold add_loop_name. destruct (find_loop o b) as [j|] eqn:FL; [|apply same_at_refl]. cbv zeta.
  destruct (wf_loop_get b o j W FL) as (l1 & names & l2 & E1 & E2 & _). rewrite E2. destruct (mem str_eqb (lower n) names) eqn:M; [apply same_at_refl|].
  destruct (obind (get_item o b) py_len); [|apply same_at_refl]. destruct (obind (get_item n b) py_len); [|apply same_at_refl]. destruct (negb _); [apply same_at_refl|].
  cbn [fst]. split; [reflexivity|]. split; [reflexivity|]. unfold find_loop, set_loops, set_order. cbn [b_loops]. rewrite L. apply placed_find.
  rewrite (placed_dset k j names).
  - unfold placed. rewrite map_map. apply map_ext. intros [j' ns]. unfold loop_has. cbn [fst snd]. f_equal. destruct (mem str_eqb (lower n) ns); [|reflexivity]. apply mem_eq. now apply remove1_other.
  - rewrite (dget_map_snd Z.eqb (fun x => if mem str_eqb (lower n) x then remove1 str_eqb (lower n) x else x)), E2. cbn [option_map]. now rewrite M.
  - apply mem_eq. rewrite in_app_iff. cbn [In]. split; auto. intros [H|[H|[]]]; auto. now subst.
Qed.
Lemma find_without x lc ls : ~ In x lc -> option_map fst (find (loop_has x) (loops_without lc ls)) = option_map fst (find (loop_has x) ls).
Proof.
  intros N. unfold loops_without. induction ls as [|[k ns] ls IH]; [reflexivity|]. cbn [map filter find fst snd].
  assert (mem str_eqb x (filter (notin lc) ns) = mem str_eqb x ns) as M.
  { apply mem_eq. rewrite filter_In. split; [tauto|]. intros H. split; [exact H|]. unfold notin. apply negb_true_iff. now apply (mem_false _ str_eqb_spec). }
  unfold loop_has at 2. cbn [snd]. destruct (mem str_eqb x ns) eqn:E.
  - assert (negb (is_empty_loop (k, filter (notin lc) ns)) = true) as X. { unfold is_empty_loop. cbn [snd]. now destruct (filter (notin lc) ns). }
    rewrite X. cbn [find]. unfold loop_has at 1. cbn [snd]. now rewrite M.
  - destruct (negb _); [cbn [find]; unfold loop_has at 1; cbn [snd]; rewrite M|]; apply IH.
Qed.
Lemma create_loop_same k n o b : WF b -> lower k = k -> k <> lower n -> same_at k b (fst (create_loop [n] o true b)).
Proof.
  intros W L N. assert (same_at k b (fst (loop_length_check [n] b))) as S.
  { unfold loop_length_check. destruct (get_items [n] b); [|apply same_at_refl]. destruct (Nat.eqb _ _); [destruct (all_same_len _); apply same_at_refl|]. destruct (negb _); [apply same_at_refl|].
    cbn [listify_items]. destruct (get_item n b) as [v|]; [|apply same_at_refl]. pose proof (set_item_same k n (VList [v]) b N) as T. destruct (set_item n (VList [v]) b) as [b' []]; exact T. }
  destruct (loop_length_check [n] b) as [b1 [[]|e]] eqn:LC; cbn [fst] in S.
  - rewrite (create_loop_success _ _ _ _ W LC). apply (same_at_trans _ _ _ _ S). cbn [fst]. split; [reflexivity|]. split; [reflexivity|].
    unfold find_loop, loop_tables, set_loops, set_order. cbn [b_loops]. rewrite L. rewrite <- (find_without k (map lower [n]) (b_loops b1)) by (intros [H|[]]; congruence).
    set (ls := loops_without _ _). clearbody ls. generalize (new_loop_no ls). intros no. induction ls as [|x ls IH]; cbn [app find].
    + unfold loop_has. cbn [snd map]. assert (mem str_eqb k [lower n] = false) as -> by (apply (mem_false _ str_eqb_spec); intros [H|[]]; congruence). reflexivity.
    + destruct (loop_has k x); [reflexivity|exact IH].
  - rewrite (create_loop_fail _ _ _ _ _ LC). exact S.
Qed.
Lemma change_order_same k n p b : WF b -> lower k = k -> same_at k b (fst (change_item_order (ON n) p b)).
Proof.
  intros W L. cbn [change_item_order]. destruct (find_loop n b) as [j|] eqn:FL.
  - destruct (wf_loop_get b n j W FL) as (l1 & names & l2 & E1 & E2 & E3 & _). rewrite E2. split; [reflexivity|]. split; [reflexivity|]. unfold find_loop, set_loops. cbn [fst b_loops]. rewrite L.
    apply placed_find, (placed_dset k j names); [exact E2|]. apply mem_eq.
    assert (Permutation (py_insert p (lower n) (remove1 str_eqb (lower n) names)) names) as P. { rewrite py_insert_perm. apply remove1_perm; auto using str_eqb_spec. }
    split; apply Permutation_in; [exact P|now symmetry].
  - destruct (mem _ _ _); repeat split.
Qed.
Lemma dget_del {V} k k' (l : list (str * V)) : k <> k' -> dget str_eqb k (ddel str_eqb k' l) = dget str_eqb k l.
Proof. intros N. apply dget_ddel_neq; [apply str_eqb_spec|exact N]. Qed.
Lemma find_ddel_loop k j x ls : (forall ns, dget Z.eqb j ls = Some ns -> ~ In x ns) -> k = x -> option_map fst (find (loop_has k) (ddel Z.eqb j ls)) = option_map fst (find (loop_has k) ls).
Proof.
  intros H ->. induction ls as [|[j1 n1] ls IH]; [reflexivity|]. cbn [ddel find dget] in *. destruct (Z.eqb_spec j j1) as [<-|M].
  - unfold loop_has at 2. cbn [snd]. destruct (mem str_eqb x n1) eqn:E; [|reflexivity]. exfalso. apply (H n1 eq_refl). now apply (mem_In _ str_eqb_spec).
  - cbn [find]. destruct (loop_has x (j1, n1)); [reflexivity|]. now apply IH.
Qed.
Lemma remove_item_same k n b : WF b -> lower k = k -> k <> lower n -> same_at k b (fst (remove_item n b)).
Proof.
  intros W L N. unfold remove_item. destruct (has_key (lower n) b); [|apply same_at_refl]. cbv zeta. destruct (find_loop n b) as [j|] eqn:FL.
  - destruct (wf_loop_get b n j W FL) as (l1 & names & l2 & E1 & E2 & E3 & _). rewrite E2. destruct (remove1 str_eqb (lower n) names) as [|x r] eqn:R.
    + assert (same_at k b (mkBlock (ddel str_eqb (lower n) (b_data b)) (ddel Z.eqb j (b_loops b)) (b_order b) (ddel str_eqb (lower n) (b_true b)) (b_over b) (b_max b) (b_uni b))) as S.
      { split; [now apply dget_del|]. split; [now apply dget_del|]. unfold find_loop. cbn [b_loops]. rewrite L. apply (find_ddel_loop k j k); [|reflexivity]. intros ns G H. rewrite E2 in G. injection G as <-.
        apply (remove1_other k (lower n) names N) in H. rewrite R in H. exact H. }
      destruct (mem _ _ _); exact S.
    + split; [now apply dget_del|]. split; [now apply dget_del|]. unfold find_loop. cbn [fst b_loops]. rewrite L. unfold upd_loop. apply placed_find, (placed_dset k j names); [exact E2|]. apply mem_eq. rewrite <- R. now apply remove1_other.
  - assert (same_at k b (mkBlock (ddel str_eqb (lower n) (b_data b)) (b_loops b) (b_order b) (ddel str_eqb (lower n) (b_true b)) (b_over b) (b_max b) (b_uni b))) as S.
    { split; [now apply dget_del|]. split; [now apply dget_del|]. reflexivity. }
    destruct (mem _ _ _); exact S.
Qed.

(** ** Reading *)
Lemma read_wf n d cache prov k b : WF b -> WF (fst (read n d cache prov k b)).
Proof.
  apply (safe_read d WF (fun _ => True)); auto.
  - intros x v b0 H _ _. now apply add_item_wf.
  - intros m x b0 H _. now apply add_loop_name_wf.
  - intros x b0 H _. apply create_loop_wf; auto. constructor; [intros []|constructor].
  - intros x b0 H. now apply change_item_order_wf.
  - intros x b0 raw f H _ _ _. split; auto. now apply remove_item_wf.
Qed.
Lemma question_spec v : py_eq v query = true -> v = question.
Proof.
  destruct v; try discriminate. unfold question, query. intros H. change (str_eqb s (u "?") = true) in H. destruct (str_eqb_spec s (u "?")); [now subst|discriminate].
Qed.
Lemma to_calculate_spec v : unknown v = true -> to_calculate v = true -> v = question \/ exists l, (v = VList l \/ v = VSL l) /\ l <> [] /\ forall x, In x l -> x = question.
Proof.
  intros U T. assert (forall l, vmem query l || vmem dot l = true -> forallb (fun a => py_eq a query) l = true -> l <> [] /\ forall x, In x l -> x = question) as G.
  { intros l A B. split; [intros ->; discriminate|]. intros x I. rewrite forallb_forall in B. now apply question_spec, B. }
  destruct v; try (left; now apply question_spec).
  - right. exists l. destruct (G l U T). auto.
  - right. exists l. destruct (G l U T). auto.
Qed.
Lemma kept_full b0 b k raw f : kept b0 b -> get_full k b = Ret (raw, f) -> dget str_eqb (lower k) (b_data b0) <> None -> get_full k b0 = Ret (raw, f).
Proof. intros K G N. unfold get_full in *. destruct (dget str_eqb (lower k) (b_data b0)) as [e|] eqn:E; [|congruence]. destruct (K _ _ E) as [E2 _]. now rewrite E2 in G. Qed.
Lemma read_keeps n d cache prov k b : WF b -> no_questions b -> categories_apart d -> kept b (fst (read n d cache prov k b)).
Proof.
  intros W Q C.
  assert (forall x b1, WF b1 -> kept b b1 -> dget str_eqb (lower x) (b_data b) = None -> forall b2, (forall y, lower y = y -> y <> lower x -> same_at y b1 b2) -> kept b b2) as F.
  { intros x b1 W1 K N b2 S y e E. destruct (K y e E) as (K1 & K2 & K3). assert (lower y = y) as L. { apply (wf_low b W). apply (dget_In _ str_eqb_spec) in E. now apply (in_map fst) in E. }
    destruct (S y L) as (S1 & S2 & S3); [intros ->; congruence|]. rewrite S1, S2, S3. auto. }
  assert (WF (fst (read n d cache prov k b)) /\ kept b (fst (read n d cache prov k b))) as [_ R]; [|exact R].
  apply (safe_read d (fun b1 => WF b1 /\ kept b b1) (fun x => dget str_eqb (lower x) (b_data b) = None)).
  - intros x v b1 [W1 K] N _. split; [now apply add_item_wf|]. apply (F x b1 W1 K N). intros y _ M. now apply add_item_same.
  - intros m x b1 [W1 K] N. split; [now apply add_loop_name_wf|]. apply (F x b1 W1 K N). intros y L M. now apply add_loop_name_same.
  - intros x b1 [W1 K] N. split; [apply create_loop_wf; auto; constructor; [intros []|constructor]|]. apply (F x b1 W1 K N). intros y L M. now apply create_loop_same.
  - intros x b1 [W1 K]. split; [now apply change_item_order_wf|]. intros y e E. destruct (K y e E) as (K1 & K2 & K3). assert (lower y = y) as L. { apply (wf_low b W). apply (dget_In _ str_eqb_spec) in E. now apply (in_map fst) in E. }
    destruct (change_order_same y x 0 b1 W1 L) as (S1 & S2 & S3). rewrite S1, S2, S3. auto.
  - intros x b1 [W1 K] H. destruct (dget str_eqb (lower x) (b_data b)) as [e|] eqn:E; [|reflexivity]. destruct (K _ _ E) as [E2 _]. unfold has_key, dmem in H. rewrite E2 in H. discriminate.
  - intros x b1 raw f [W1 K] G U T. assert (dget str_eqb (lower x) (b_data b) = None) as N.
    { destruct (dget str_eqb (lower x) (b_data b)) as [e|] eqn:E; [|reflexivity]. exfalso. destruct (Q x raw f) as [Q1 Q2].
      - apply (kept_full b b1); auto. congruence.
      - destruct (to_calculate_spec raw U T) as [->|(l & V & L & A)]; [now apply Q1|]. destruct (Q2 l V) as [->|(y & I & Y)]; [contradiction|]. now apply Y, A. }
    split; [|exact N]. split; [now apply remove_item_wf|]. apply (F x b1 W1 K N). intros y L M. now apply remove_item_same.
  - intros x k' t E D T. exfalso. unfold category_of in E. destruct (def_of d k') as [t'|] eqn:D'; [|discriminate]. cbn [obind] in E. destruct (tget a_category t') as [[s| | | | |]|] eqn:A; try discriminate. injection E as ->.
    unfold def_of in D, D'. destruct (dget str_eqb (lower k') (dd_defs d)) as [t1|] eqn:G'; [|discriminate]. injection D' as ->. destruct (dget str_eqb (lower x) (dd_defs d)) as [t2|] eqn:G; [|discriminate]. injection D as ->.
    apply (dget_In _ str_eqb_spec) in G'. destruct (C _ _ x t G' A G) as (s & S1 & S2). unfold is_item_def in T. change (tget a_scope t = Some s) in S1. rewrite S1 in T. unfold veq_text in T. destruct s as [s| | | | |]; try (exact (Bool.diff_false_true T)).
    destruct (str_eqb_spec s (u "Item")) as [E0|E0]; [apply S2; now rewrite E0|exact (Bool.diff_false_true T)].
  - split; [exact W|]. intros y e E. auto.
Qed.
Lemma read_adds n d cache prov k b : WF b -> forall x, In x (b_keys (fst (read n d cache prov k b))) -> In x (b_keys b) \/ In x (map fst (dd_defs d)).
Proof.
  intros W. set (J := fun b1 : block => WF b1 /\ forall x, In x (b_keys b1) -> In x (b_keys b) \/ In x (map fst (dd_defs d))).
  assert (J (fst (read n d cache prov k b))) as [_ R]; [|exact R].
  assert (forall b1 b2, b_data b2 = b_data b1 -> J b1 -> WF b2 -> J b2) as F. { intros b1 b2 E [_ H] W2. split; auto. unfold b_keys in *. now rewrite E. }
  apply (safe_read d J (fun _ => True)); auto.
  - intros x v b1 [W1 H] _ D. split; [now apply add_item_wf|]. intros y I. destruct (str_eqb_spec y (lower x)) as [->|N].
    + right. unfold defined in D. now apply (dmem_In _ str_eqb_spec) in D.
    + apply H. apply (dmem_In _ str_eqb_spec) in I. apply (dmem_In _ str_eqb_spec). unfold dmem in *. now rewrite (add_item_frame x v false b1 y N) in I.
  - intros m x b1 H _. apply (F b1); auto; [apply add_loop_name_data|apply add_loop_name_wf, H].
  - intros x b1 [W1 H] _. split; [apply create_loop_wf; auto; constructor; [intros []|constructor]|]. intros y I. apply H.
    unfold b_keys in I. rewrite create_loop_data in I. destruct (str_eqb_spec y (lower x)) as [->|N].
    + unfold loop_length_check in I. destruct (get_items [x] b1) as [vs|] eqn:G; [|exact I]. 
      cbn [get_items] in G. destruct (get_item x b1) as [v|] eqn:GI; [|discriminate]. apply get_item_key in GI. now apply has_key_In in GI.
    + apply (dmem_In _ str_eqb_spec) in I. apply (dmem_In _ str_eqb_spec). unfold dmem in *. rewrite length_check_frame in I; [exact I|]. intros [E|[]]. congruence.
  - intros x b1 H. apply (F b1); auto; [apply change_order_data|apply change_item_order_wf, H].
  - intros x b1 raw f [W1 H] _ _ _. split; auto. split; [now apply remove_item_wf|]. intros y I. apply H. unfold b_keys in *. rewrite remove_item_data in I. apply in_map_iff in I as (e & <- & I). apply ddel_In in I. now apply in_map.
  - split; auto.
Qed.
