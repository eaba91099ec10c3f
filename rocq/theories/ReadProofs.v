(** Proofs about the contents of data blocks. *)
From Coq Require Import String Ascii List NArith ZArith Bool Lia Permutation ZifyBool ZifyNat ZifyN.
From Verif Require Import PyBase PyFacts StarBlockModel StarBlockSpec StarBlockProofs StarBlockProofs2
  StarBlockProofs3 StarBlockProofs4 StarBlockProofs5 LoopModel LoopSpec LoopProofs LoopProofs2 ReadModel ReadSpec.
Import ListNotations.
Open Scope nat_scope.

(* ---------------------------------------------------------------- slices *)
Lemma nth_skipn {A} k (l : list A) i : nth_error (skipn k l) i = nth_error l (k + i).
Proof. revert l. induction k as [|k IH]; intros [|x l]; cbn; auto. destruct i; reflexivity. Qed.
Lemma stride_nth fuel k l i : (0 < k) -> (length l <= fuel) -> nth_error (stride fuel k l) i = nth_error l (i * k).
Proof.
  intros Hk. revert l i. induction fuel as [|f IH]; intros l i Hl.
  - destruct l; [|cbn in Hl; lia]. cbn [stride]. destruct (i * k), i; reflexivity.
  - destruct l as [|x l]; [cbn [stride]; destruct (i * k), i; reflexivity|].
    cbn [stride]. destruct i as [|i]; [reflexivity|]. cbn [nth_error].
    rewrite IH.
    + rewrite nth_skipn. reflexivity.
    + rewrite skipn_length. cbn [length] in *. lia.
Qed.
Lemma slice_nth j k l i : 0 < k -> nth_error (slice_step j k l) i = nth_error l (j + i * k).
Proof. intros Hk. unfold slice_step. rewrite stride_nth; [now rewrite nth_skipn|exact Hk|]. rewrite skipn_length. lia. Qed.
Lemma slice_len j k l i : 0 < k -> (i < length (slice_step j k l) <-> j + i * k < length l).
Proof. intros Hk. rewrite <- !nth_error_Some. now rewrite slice_nth. Qed.
Lemma slice_whole j k l : j < k -> Nat.divide k (length l) -> length (slice_step j k l) = length l / k.
Proof.
  intros Hj [q Hq]. rewrite Hq, PeanoNat.Nat.div_mul by lia.
  assert (forall i, i < length (slice_step j k l) <-> i < q) as H.
  { intros i. rewrite slice_len by lia. rewrite Hq. split; intros; nia. }
  pose proof (H (length (slice_step j k l))). pose proof (H q). lia.
Qed.
Lemma slice_ragged k l : 0 < k -> ~ Nat.divide k (length l) -> length (slice_step 0 k l) <> length (slice_step (k - 1) k l).
Proof.
  intros Hk Hd E. apply Hd. pose proof (PeanoNat.Nat.div_mod (length l) k ltac:(lia)) as Hm.
  pose proof (PeanoNat.Nat.mod_upper_bound (length l) k ltac:(lia)) as Hu.
  set (q := length l / k) in *. set (r := length l mod k) in *.
  destruct (PeanoNat.Nat.eq_dec r 0) as [Hr|Hr]; [exists q; lia|]. exfalso.
  pose proof (slice_len 0 k l q Hk) as H0. pose proof (slice_len (k - 1) k l q Hk) as H1.
  assert (q < length (slice_step 0 k l)) as A by (apply H0; nia).
  assert (~ q < length (slice_step (k - 1) k l)) as B by (intros X; apply H1 in X; nia). lia.
Qed.
Lemma slice_In j k l x : 0 < k -> In x (slice_step j k l) -> In x l.
Proof. intros Hk H. apply In_nth_error in H. destruct H as [i H]. rewrite slice_nth in H by exact Hk. now apply nth_error_In in H. Qed.

(* ---------------------------------------------------------------- values *)
Lemma parsed_not_none v : parsed v -> not_none v = true.
Proof.
  induction v as [s|s| |l IH|l IH|d IH] using value_ind'; intros H; try reflexivity; inversion H; subst.
  cbn. apply forallb_forall. intros x Hx. rewrite Forall_forall in *. auto.
Qed.
Lemma parsed_plain v : parsed v -> is_plain_list v = false.
Proof. now inversion 1. Qed.
Lemma parsed_entry v : parsed v -> entry_val (v, VNone) = Ret v.
Proof.
  intros H. pose proof (parsed_not_none v H) as Hn. unfold entry_val. cbn [fst snd].
  inversion H; subst; now rewrite Hn.
Qed.
Lemma parsed_column l : Forall parsed l -> entry_val (VList l, VNone) = Ret (VList l).
Proof.
  intros H. unfold entry_val. cbn [fst snd]. assert (not_none (VList l) = true) as ->; [|reflexivity].
  cbn. apply forallb_forall. rewrite Forall_forall in H. intros x Hx. apply parsed_not_none. auto.
Qed.
Lemma dataname_not_saves n : is_dataname n -> n <> u "saves".
Proof. intros [r ->]. discriminate. Qed.

Lemma last_of_spec l : match last_of l with None => l = [] | Some x => exists l0, l = l0 ++ [x] end.
Proof.
  induction l as [|x l IH]; [reflexivity|]. destruct l as [|y l]; [exists []; reflexivity|].
  change (last_of (x :: y :: l)) with (last_of (y :: l)). destruct (last_of (y :: l)) as [z|]; [|discriminate].
  destruct IH as [l0 ->]. exists (x :: l0). reflexivity.
Qed.
Lemma makeloop_full ns vs b : vs <> [] -> Forall parsed vs -> ends_full vs ->
  makeloop ns vs b = match add_columns 0 (length ns) ns vs b with
                     | (b', Raise e) => (b', Raise e) | (b', Ret _) => create_loop ns (-1) true b' end.
Proof.
  intros Hne Hp Hf. unfold makeloop. pose proof (last_of_spec vs) as H. destruct (last_of vs) as [x|]; [|contradiction].
  destruct H as [l0 ->]. assert (is_empty_list x = false) as ->; [|reflexivity].
  rewrite Forall_forall in Hp. assert (parsed x) as Hx by (apply Hp; apply in_or_app; right; now left).
  destruct x as [| | |[|]|[|]|]; try reflexivity; [inversion Hx|]. exfalso. now apply (Hf l0).
Qed.

(* ---------------------------------------------------------- one new item *)
Record added (ns : list str) (b b' : block) : Prop := mkAdded {
  ad_wf : WF b'; ad_over : b_over b' = b_over b; ad_max : b_max b' = b_max b; ad_uni : b_uni b' = b_uni b;
  ad_keys : b_keys b' = b_keys b ++ map lower ns;
  ad_true : b_true b' = b_true b ++ map (fun n => (lower n, n)) ns;
  ad_frame : forall m, ~ In (lower m) (map lower ns) -> dget str_eqb (lower m) (b_data b') = dget str_eqb (lower m) (b_data b) }.

Lemma wf_true_keys b k : WF b -> In k (dkeys (b_true b)) <-> In k (b_keys b).
Proof. intros W. split; apply Permutation_in; [apply (wf_true b W)|symmetry; apply (wf_true b W)]. Qed.

Lemma add_pre n v b : WF b -> has_key n b = false ->
  exists b', add_item n v true b = (b', Ret tt) /\ added [n] b b' /\
    b_loops b' = b_loops b /\ b_order b' = b_order b ++ [ON (lower n)] /\
    dget str_eqb (lower n) (b_data b') = Some (v, VNone).
Proof.
  intros W H. unfold add_item. rewrite H. cbn [andb]. eexists. split; [reflexivity|].
  assert (find_loop (lower n) b = None) as Hf.
  { destruct (find_loop (lower n) b) as [k|] eqn:E; [|reflexivity]. apply (wf_find_loop_key b _ _ W) in E.
    rewrite has_key_lower in E. congruence. }
  split; [|split; [|split]].
  - constructor; try reflexivity.
    + now apply store_item_wf.
    + unfold b_keys, store_item. cbn [b_data]. rewrite (dkeys_dset _ str_eqb_spec).
      unfold has_key in H. now rewrite H.
    + unfold store_item. cbn [b_true map]. f_equal. apply (ddel_notin _ str_eqb_spec).
      rewrite wf_true_keys by exact W. now apply has_key_false.
    + intros m Hm. rewrite store_dget. destruct (str_eqb_spec (lower m) (lower n)) as [E|]; [|reflexivity].
      exfalso. apply Hm. cbn. now left.
  - reflexivity.
  - unfold store_item. cbn [b_order]. now rewrite has_key_lower, H, Hf.
  - rewrite store_dget. now rewrite str_eqb_refl.
Qed.
Lemma add_pre_dup n v b : has_key n b = true -> b_over b = false -> add_item n v true b = (b, Raise StarErr).
Proof. intros H O. unfold add_item. now rewrite H, O. Qed.

Lemma added_trans a c b1 b2 b3 : added a b1 b2 -> added c b2 b3 -> added (a ++ c) b1 b3.
Proof.
  intros [W1 O1 M1 U1 K1 T1 F1] [W2 O2 M2 U2 K2 T2 F2]. constructor; try congruence.
  - rewrite map_app, app_assoc. congruence.
  - rewrite map_app, app_assoc. congruence.
  - intros m Hm. rewrite map_app in Hm. rewrite F2, F1; [reflexivity| |]; intros H; apply Hm; apply in_or_app; auto.
Qed.

Lemma add_columns_ok k vals : forall names j b, WF b -> NoDup (map lower names) ->
  (forall n, In n names -> has_key n b = false) ->
  exists b', add_columns j k names vals b = (b', Ret tt) /\ added names b b' /\
    b_loops b' = b_loops b /\ b_order b' = b_order b ++ map (fun n => ON (lower n)) names /\
    forall i n, nth_error names i = Some n ->
      dget str_eqb (lower n) (b_data b') = Some (VList (slice_step (j + i) k vals), VNone).
Proof.
  induction names as [|n names IH]; intros j b W Hnd Hf.
  - exists b. split; [reflexivity|]. split; [|split; [reflexivity|split; [now rewrite app_nil_r|]]].
    + constructor; auto; now rewrite app_nil_r.
    + intros [|i] n H; discriminate.
  - cbn [map] in Hnd. inversion Hnd as [|? ? Hn Hnd']; subst.
    destruct (add_pre n (VList (slice_step j k vals)) b W (Hf n (or_introl eq_refl))) as (b1 & E1 & A1 & L1 & O1 & D1).
    destruct (IH (S j) b1 (ad_wf _ _ _ A1) Hnd') as (b' & E & A & L & O & D).
    { intros m Hm. apply has_key_false. rewrite (ad_keys _ _ _ A1). intros H. apply in_app_or in H. destruct H as [H|[H|[]]].
      - apply has_key_In in H. rewrite (Hf m (or_intror Hm)) in H. discriminate.
      - apply Hn. rewrite H. now apply in_map. }
    exists b'. cbn [add_columns]. rewrite E1. split; [exact E|]. split; [|split; [congruence|split]].
    + change (n :: names) with ([n] ++ names). eapply added_trans; eauto.
    + rewrite O, O1, <- app_assoc. reflexivity.
    + intros [|i] m Hm; cbn in Hm.
      * injection Hm as <-. rewrite (ad_frame _ _ _ A) by exact Hn. rewrite D1. now rewrite PeanoNat.Nat.add_0_r.
      * rewrite (D i m Hm). do 4 f_equal. lia.
Qed.
Lemma add_columns_dup k vals : forall names j b, WF b -> b_over b = false ->
  (~ NoDup (map lower names) \/ exists n, In n names /\ has_key n b = true) ->
  exists b', add_columns j k names vals b = (b', Raise StarErr).
Proof.
  induction names as [|n names IH]; intros j b W O H.
  - exfalso. destruct H as [H|(n & [] & _)]. apply H. constructor.
  - cbn [add_columns]. destruct (has_key n b) eqn:Hn.
    + rewrite add_pre_dup; eauto.
    + destruct (add_pre n (VList (slice_step j k vals)) b W Hn) as (b1 & E1 & A1 & L1 & O1 & D1). rewrite E1.
      apply IH; [apply (ad_wf _ _ _ A1)|rewrite (ad_over _ _ _ A1); exact O|].
      assert (forall m, has_key m b1 = true <-> In (lower m) (b_keys b) \/ lower n = lower m) as HK.
      { intros m. rewrite has_key_In, (ad_keys _ _ _ A1), in_app_iff. cbn. intuition. }
      destruct (in_dec (list_eq_dec N.eq_dec) (lower n) (map lower names)) as [Hin|Hin].
      * right. apply in_map_iff in Hin. destruct Hin as (m & Hm & Hi). exists m. split; [exact Hi|]. apply HK. right. congruence.
      * destruct H as [H|(m & [<-|Hm] & Hk)].
        -- left. intros Hnd. apply H. cbn [map]. now constructor.
        -- congruence.
        -- right. exists m. split; [exact Hm|]. apply HK. left. now apply has_key_In.
Qed.

(* ------------------------------------------------------------- whole loops *)
Lemma get_item_entry n b e v : n <> u "saves" -> dget str_eqb (lower n) (b_data b) = Some e -> entry_val e = Ret v -> get_item n b = Ret v.
Proof.
  intros Hn Hd He. rewrite get_full_entry. destruct (str_eqb_spec n (u "saves")) as [|_]; [contradiction|]. now rewrite Hd.
Qed.

Definition no_empty_loops (b : block) : Prop := forall k ns, In (k, ns) (b_loops b) -> ns <> [].

Lemma loop_tables_fresh names b : no_empty_loops b ->
  (forall n, In n names -> find_loop n b = None) ->
  loop_tables names (-1) b =
  set_loops (b_loops b ++ [(new_loop_no (b_loops b), map lower names)])
    (set_order (filter (order_not_in (map lower names)) (b_order b ++ [OL (new_loop_no (b_loops b))])) b).
Proof.
  intros He Hf.
  assert (map (fun kl => (fst kl, filter (notin (map lower names)) (snd kl))) (b_loops b) = b_loops b) as E.
  { rewrite <- (map_id (b_loops b)) at 2. apply map_ext_in. intros [k ns] Hk. cbn [fst snd]. f_equal.
    apply filter_all. intros x Hx. unfold notin. apply negb_true_iff.
    destruct (mem str_eqb x (map lower names)) eqn:Hm; [|reflexivity]. exfalso.
    apply (mem_In _ str_eqb_spec) in Hm. apply in_map_iff in Hm. destruct Hm as (n & <- & Hn).
    specialize (Hf n Hn). apply find_loop_None in Hf. apply Hf. apply in_concat. exists ns. split; [|exact Hx].
    apply in_map_iff. exists (k, ns). now split. }
  unfold loop_tables, loops_without. cbv zeta. rewrite E.
  assert (filter (fun kl => negb (is_empty_loop kl)) (b_loops b) = b_loops b) as ->.
  { apply filter_all. intros [k ns] Hk. specialize (He k ns Hk). destruct ns; [contradiction|reflexivity]. }
  assert (filter is_empty_loop (b_loops b) = []) as ->.
  { destruct (filter is_empty_loop (b_loops b)) as [|[k ns] r] eqn:Ef; [reflexivity|]. exfalso.
    assert (In (k, ns) (filter is_empty_loop (b_loops b))) as Hi by (rewrite Ef; now left).
    apply filter_In in Hi. destruct Hi as [Hi Hx]. specialize (He k ns Hi). destruct ns; [contradiction|discriminate]. }
  cbn [dkeys map]. rewrite (filter_all (keep_ref []) (b_order b)) by (intros [|] _; reflexivity).
  reflexivity.
Qed.

Lemma filter_not_in_order names o :
  filter (order_not_in (map lower names)) (o ++ map (fun n => ON (lower n)) names) = filter (order_not_in (map lower names)) o.
Proof.
  rewrite filter_app. assert (filter (order_not_in (map lower names)) (map (fun n => ON (lower n)) names) = []) as ->; [|now rewrite app_nil_r].
  assert (forall ns, (forall n, In n ns -> In n names) -> filter (order_not_in (map lower names)) (map (fun n => ON (lower n)) ns) = []) as H.
  { induction ns as [|n ns IH]; intros Hs; [reflexivity|]. cbn [map filter order_not_in].
    assert (mem str_eqb (lower n) (map lower names) = true) as -> by (apply (mem_In _ str_eqb_spec), in_map, Hs; now left).
    cbn [negb]. apply IH. intros m Hm. apply Hs. now right. }
  now apply H.
Qed.

Lemma whole_check ns b : ns <> [] -> same_length_columns b ns -> loop_length_check ns b = (b, Ret tt).
Proof.
  intros Hne Hs. destruct (check_cases ns b) as [e L (n & I & N)|L C|L N|L NE A NC]; auto.
  - exfalso. destruct Hs as (r & Hs). destruct (Hs n I) as (l & E & _). now apply (N (VList l)).
  - exfalso. apply N. now left.
  - exfalso. auto.
Qed.
Lemma ragged_check ns b m n l l' : In m ns -> In n ns -> get_item m b = Ret (VList l) -> get_item n b = Ret (VList l') ->
  length l <> length l' -> (forall x, In x ns -> exists v, get_item x b = Ret v) -> loop_length_check ns b = (b, Raise ValueErr).
Proof.
  intros Hm Hn Em En Hl Hall. destruct (check_cases ns b) as [e L (x & I & N)|L C|L N|L NE A NC]; auto.
  - exfalso. destruct (Hall x I) as (v & E). now apply (N v).
  - exfalso. destruct C as (r & C). destruct (C m Hm) as (a & Ea & La). destruct (C n Hn) as (c & Ec & Lc). congruence.
  - exfalso. destruct (A m Hm) as (v & E & P). assert (v = VList l) as -> by congruence. discriminate.
Qed.

Lemma nonnil_len {A} (l : list A) : l <> [] -> 0 < length l.
Proof. destruct l; [contradiction|cbn; lia]. Qed.

Section MakeLoop.
  Variables (ns : list str) (vs : list value) (b : block).
  Hypotheses (W : WF b) (Hns : ns <> []) (Hvs : vs <> []) (Hnames : Forall is_dataname ns) (Hparsed : Forall parsed vs)
    (Hfull : ends_full vs) (Hnd : NoDup (map lower ns)) (Hfresh : forall n, In n ns -> has_key n b = false).

  Lemma klen : 0 < length ns.
  Proof using Hns. now apply nonnil_len. Qed.

  Lemma columns_read : exists b1, add_columns 0 (length ns) ns vs b = (b1, Ret tt) /\ added ns b b1 /\
    b_loops b1 = b_loops b /\ b_order b1 = b_order b ++ map (fun n => ON (lower n)) ns /\
    forall j n, nth_error ns j = Some n -> get_item n b1 = Ret (VList (slice_step j (length ns) vs)).
  Proof.
    destruct (add_columns_ok (length ns) vs ns 0 b W Hnd Hfresh) as (b1 & E & A & L & O & D).
    exists b1. repeat (split; [assumption|]). intros j n Hj. specialize (D j n Hj). cbn in D.
    eapply get_item_entry; [|exact D|].
    - rewrite Forall_forall in Hnames. apply dataname_not_saves, Hnames. now apply nth_error_In in Hj.
    - apply parsed_column. pose proof klen as Hk. apply Forall_forall. rewrite Forall_forall in Hparsed. intros x Hx. apply Hparsed. eapply slice_In; [exact Hk|exact Hx].
  Qed.

  Lemma makeloop_bad : ~ whole_rows ns vs -> snd (makeloop ns vs b) = Raise ValueErr.
  Proof.
    intros Hw. rewrite makeloop_full by assumption. destruct columns_read as (b1 & E & A & L & O & G). rewrite E.
    unfold create_loop. pose proof klen as Hk.
    destruct (nth_error ns 0) as [m|] eqn:Em; [|apply nth_error_None in Em; lia].
    destruct (nth_error ns (length ns - 1)) as [n|] eqn:En; [|apply nth_error_None in En; lia].
    rewrite (ragged_check ns b1 m n _ _ (nth_error_In _ _ Em) (nth_error_In _ _ En) (G _ _ Em) (G _ _ En)
               (slice_ragged _ vs Hk Hw)); [reflexivity|].
    intros x Hx. apply In_nth_error in Hx. destruct Hx as [j Hj]. eauto.
  Qed.

  Lemma makeloop_good : whole_rows ns vs ->
    exists b', makeloop ns vs b = (b', Ret tt) /\ added ns b b' /\ holds_rows b' ns vs /\
      (no_empty_loops b ->
       b_loops b' = b_loops b ++ [(new_loop_no (b_loops b), map lower ns)] /\
       b_order b' = b_order b ++ [OL (new_loop_no (b_loops b))]).
  Proof.
    intros Hw. rewrite makeloop_full by assumption. destruct columns_read as (b1 & E & A & L & O & G). rewrite E.
    pose proof (ad_wf _ _ _ A) as W1. pose proof klen as Hk.
    assert (same_length_columns b1 ns) as Hsame.
    { exists (length vs / length ns). intros n Hn. apply In_nth_error in Hn. destruct Hn as [j Hj].
      exists (slice_step j (length ns) vs). split; [now apply (G j n)|]. apply slice_whole; [|exact Hw]. apply nth_error_Some. congruence. }
    assert (forall n, In n ns -> find_loop n b1 = None) as Hfl.
    { intros n Hn. unfold find_loop. rewrite L. fold (find_loop n b).
      destruct (find_loop n b) as [k|] eqn:Ef; [|reflexivity]. apply (wf_find_loop_key b _ _ W) in Ef. now rewrite Hfresh in Ef. }
    pose proof (create_loop_success ns (-1) b1 b1 W1 (whole_check ns b1 Hns Hsame)) as C.
    rewrite C. set (b' := loop_tables _ _ _) in *. exists b'. split; [reflexivity|].
    assert (WF b') as W'.
    { pose proof (create_loop_wf ns (-1) b1 W1 Hnd) as X. now rewrite C in X. }
    assert (forall m, ~ In (lower m) (map lower ns) -> dget str_eqb (lower m) (b_data b') = dget str_eqb (lower m) (b_data b)) as F
      by (intros m Hm; now apply (ad_frame _ _ _ A)).
    split; [|split].
    - destruct A. constructor; auto.
    - split.
      + split; [destruct ns; [contradiction|discriminate]|]. intros n Hn. split.
        * assert (exists no, loop_created ns (-1) no b1 b') as [no X] by now apply create_loop_effect.
          apply in_map_iff in Hn. destruct Hn as (m & <- & Hm). rewrite <- (lc_new _ _ _ _ _ X m Hm).
          apply get_loop_names_ext. now rewrite lower_idem.
        * apply in_map_iff in Hn. destruct Hn as (m & <- & Hm). apply In_nth_error in Hm. destruct Hm as [j Hj].
          exists (slice_step j (length ns) vs). split.
          -- assert (get_item m b' = Ret (VList (slice_step j (length ns) vs))) as Hg by (rewrite <- (G j m Hj); reflexivity).
             rewrite <- Hg. apply get_item_ext; [apply lower_idem| |].
             ++ assert (is_dataname m) as [r ->] by (rewrite Forall_forall in Hnames; apply Hnames; now apply nth_error_In in Hj). discriminate.
             ++ apply dataname_not_saves. rewrite Forall_forall in Hnames. apply Hnames. now apply nth_error_In in Hj.
          -- apply slice_whole; [|exact Hw]. apply nth_error_Some. congruence.
      + intros j n Hj i v. rewrite <- slice_nth by exact Hk.
        assert (get_item n b' = Ret (VList (slice_step j (length ns) vs))) as Hg by (rewrite <- (G j n Hj); reflexivity).
        split.
        * intros (l & El & Hv). assert (l = slice_step j (length ns) vs) as -> by congruence. exact Hv.
        * intros Hv. exists (slice_step j (length ns) vs). now split.
    - intros Hel. assert (no_empty_loops b1) as Hel1 by (unfold no_empty_loops; rewrite L; exact Hel).
      unfold b'. rewrite (loop_tables_fresh ns b1 Hel1 Hfl), L, O. split; [reflexivity|].
      cbn [b_order set_loops set_order]. rewrite <- app_assoc, filter_app, filter_app.
      rewrite (filter_all (order_not_in (map lower ns)) (b_order b)).
      + f_equal. pose proof (filter_not_in_order ns []) as X. cbn [app] in X. rewrite X. reflexivity.
      + intros [n|k] Ho; [|reflexivity]. cbn [order_not_in]. apply negb_true_iff.
        destruct (mem str_eqb n (map lower ns)) eqn:Hm; [|reflexivity]. exfalso.
        apply (mem_In _ str_eqb_spec) in Hm. apply in_map_iff in Hm. destruct Hm as (x & <- & Hx).
        assert (In (lower x) (b_keys b)) as Hi.
        { apply (printed_In_keys b _ W). unfold printed_names. apply in_or_app. left. now apply order_names_In. }
        apply has_key_In in Hi. rewrite Hfresh in Hi by exact Hx. discriminate.
  Qed.
End MakeLoop.

Lemma makeloop_dup ns vs b : WF b -> b_over b = false -> vs <> [] ->
  (~ NoDup (map lower ns) \/ exists n, In n ns /\ has_key n b = true) -> snd (makeloop ns vs b) = Raise StarErr.
Proof.
  intros W O Hne H. unfold makeloop. pose proof (last_of_spec vs) as Hl. destruct (last_of vs) as [x|]; [|contradiction].
  destruct (add_columns_dup (length ns) (if is_empty_list x then drop_last vs else vs) ns 0 b W O H) as [b' E].
  rewrite E. reflexivity.
Qed.
