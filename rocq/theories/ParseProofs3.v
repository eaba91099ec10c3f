(** Printing a block and reading it back. *)
From Coq Require Import String Ascii List NArith ZArith Bool Lia ZifyBool ZifyN ZifyNat Permutation.
From Verif Require Import PyBase PyFacts RegexModel FoldModel StarBlockModel LoopModel ScanModel FormatModel ReadModel WriteModel ParseModel
  FoldSpec StarBlockSpec LoopSpec ReadSpec ScanSpec FormatSpec WriteSpec ParseSpec StarBlockProofs StarBlockProofs3 StarBlockProofs4 LoopProofs ReadProofs ReadProofs2
  ScanProofs2 ScanProofs4 FormatProofs3 WriteProofs WriteProofs2 WriteProofs3 WriteProofs4 ParseProofs ParseProofs2.
Import ListNotations.
Open Scope nat_scope.

(** ** Entries and names *)
Definition cols_of (b : block) (k : Z) : list str := match dget Z.eqb k (b_loops b) with Some c => c | None => [] end.
Definition place (b : block) (it : oitem) : list str := match it with ON n => [n] | OL k => cols_of b k end.
Lemma shows_place b o es : Forall2 (shows b) o es -> map lower (all_names es) = flat_map (place b) o.
Proof.
  induction 1 as [|it e o es H HF IH]; [reflexivity|]. unfold all_names. cbn [flat_map]. fold (all_names es). rewrite map_app, IH. f_equal.
  destruct it as [n|k], e as [t v|ts vs]; cbn [shows] in H; try contradiction.
  - destruct H as [-> _]. reflexivity.
  - destruct H as [H _]. cbn [place item_names]. unfold cols_of. now rewrite H.
Qed.
Lemma place_split b o : Permutation (flat_map (place b) o) (order_names o ++ flat_map (cols_of b) (order_loops o)).
Proof.
  induction o as [|it o IH]; [constructor|]. cbn [flat_map]. unfold order_names, order_loops. cbn [flat_map]. fold (order_names o) (order_loops o).
  destruct it as [n|k]; cbn [place app flat_map].
  - constructor. exact IH.
  - rewrite IH. rewrite !app_assoc. apply Permutation_app_tail. apply Permutation_app_comm.
Qed.
Lemma cols_all (ls : list (Z * list str)) : NoDup (dkeys ls) -> flat_map (fun k => match dget Z.eqb k ls with Some c => c | None => [] end) (dkeys ls) = concat (map snd ls).
Proof.
  intros H. rewrite flat_map_concat_map. f_equal. unfold dkeys. rewrite map_map. apply map_ext_in. intros [k c] Hi. cbn [fst snd].
  now rewrite (dget_In_NoDup _ Z.eqb_spec _ _ _ H Hi).
Qed.
Lemma shows_names b es : WF b -> Forall2 (shows b) (b_order b) es -> Permutation (map lower (all_names es)) (b_keys b).
Proof.
  intros W HF. rewrite (shows_place _ _ _ HF), place_split. rewrite <- (wf_place b W). unfold printed_names. apply Permutation_app_head.
  rewrite <- (cols_all (b_loops b) (wf_nums b W)). apply Permutation_flat_map. apply (wf_refs b W).
Qed.

Lemma underscore_not_saves t n : (exists r, t = 95%N :: r) -> lower n = lower t -> n <> u "saves".
Proof. intros [r ->] E ->. cbn in E. discriminate. Qed.
Lemma shows_get b o es : Forall2 (shows b) o es -> forall e, In e es -> exists it, In it o /\ shows b it e.
Proof. induction 1 as [|it e o es H HF IH]; intros x Hx; [destruct Hx|]. destruct Hx as [<-|Hx]; [exists it; split; [now left|exact H]|]. destruct (IH x Hx) as (it' & H1 & H2). exists it'. split; [now right|exact H2]. Qed.
Lemma canon_names es : all_names (map canon_item es) = all_names es.
Proof. induction es as [|[t v|ts vs] es IH]; cbn; unfold all_names in *; cbn; congruence. Qed.
(** A block that shows the entries of another as they are read. *)
Lemma shows_read b1 b2 es : WF b1 -> WF b2 -> Forall2 (shows b1) (b_order b1) es -> Forall2 (shows b2) (b_order b2) (map canon_item es) ->
  Forall (fun t => exists r, t = 95%N :: r) (all_names es) -> same_read b1 b2.
Proof.
  intros W1 W2 F1 F2 Hu n. pose proof (shows_names _ _ W1 F1) as P1. pose proof (shows_names _ _ W2 F2) as P2. rewrite canon_names in P2.
  assert (dget str_eqb n (b_true b2) = dget str_eqb n (b_true b1)) as Hsp.
  { destruct (in_dec (list_eq_dec N.eq_dec) n (map lower (all_names es))) as [Hi|Hi].
    - apply in_map_iff in Hi. destruct Hi as (t & <- & Hi). unfold all_names in Hi. apply in_flat_map in Hi. destruct Hi as (e & He & Hi).
      destruct (shows_get _ _ _ F1 e He) as (it1 & _ & S1). destruct (shows_get _ _ _ F2 (canon_item e) (in_map _ _ _ He)) as (it2 & _ & S2).
      destruct e as [t' v|ts vs].
      + destruct Hi as [->|[]]. destruct it1; [|destruct S1]. destruct it2; [|destruct S2]. destruct S1 as (-> & -> & _). destruct S2 as (-> & -> & _). reflexivity.
      + destruct it1; [destruct S1|]. destruct it2; [destruct S2|]. destruct S1 as (_ & S1 & _). destruct S2 as (_ & S2 & _).
        rewrite Forall_forall in S1, S2. now rewrite (S1 t Hi), (S2 t Hi).
    - assert (forall b, WF b -> Permutation (map lower (all_names es)) (b_keys b) -> dget str_eqb n (b_true b) = None) as K.
      { intros b W P. apply (dget_None _ str_eqb_spec). intros X. apply Hi. eapply Permutation_in; [symmetry; exact P|].
        eapply Permutation_in; [apply (wf_true b W)|exact X]. }
      now rewrite (K b1), (K b2). }
  destruct (in_dec (list_eq_dec N.eq_dec) (lower n) (map lower (all_names es))) as [Hi|Hi].
  - apply in_map_iff in Hi. destruct Hi as (t & Et & Hi). rewrite Forall_forall in Hu. pose proof (Hu t Hi) as Hut.
    assert (n <> u "saves") as Hns by (eapply underscore_not_saves; eauto).
    assert (t <> u "saves") as Hts by (eapply underscore_not_saves; eauto).
    rewrite !(get_item_ext n t) by (congruence || assumption). rewrite !(get_loop_names_ext n t) by congruence.
    unfold all_names in Hi. apply in_flat_map in Hi. destruct Hi as (e & He & Hi).
    destruct (shows_get _ _ _ F1 e He) as (it1 & _ & S1). destruct (shows_get _ _ _ F2 (canon_item e) (in_map _ _ _ He)) as (it2 & _ & S2).
    destruct e as [t' v|ts vs]; cbn [canon_item] in S2.
    + destruct Hi as [->|[]]. destruct it1; [|destruct S1]. destruct it2; [|destruct S2].
      destruct S1 as (_ & _ & S1 & S1'). destruct S2 as (_ & _ & S2 & S2'). rewrite S1, S2, S1', S2'. auto.
    + destruct it1; [destruct S1|]. destruct it2; [destruct S2|]. destruct S1 as (_ & _ & T1 & C1). destruct S2 as (_ & _ & T2 & C2).
      destruct (proj2 T1 (lower t) (in_map lower _ _ Hi)) as (N1 & l1 & G1 & L1). destruct (proj2 T2 (lower t) (in_map lower _ _ Hi)) as (N2 & l2 & G2 & L2).
      apply get_item_spelled in G1. apply get_item_spelled in G2.
      assert (get_loop_names t b1 = get_loop_names (lower t) b1) as -> by (apply get_loop_names_ext; now rewrite lower_idem).
      assert (get_loop_names t b2 = get_loop_names (lower t) b2) as -> by (apply get_loop_names_ext; now rewrite lower_idem).
      rewrite G1, G2, N1, N2. split; [reflexivity|]. split; [exact Hsp|].
      cbn [is_ret read_back]. do 2 f_equal. apply nth_error_ext. intros i. rewrite nth_error_map.
      apply In_nth_error in Hi. destruct Hi as [j Ej]. rewrite map_length in L2.
      assert (forall x, nth_error l1 i = Some x <-> nth_error vs (j + i * length ts) = Some x) as K1.
      { intros x. rewrite <- (C1 j t Ej i x). unfold cell. rewrite G1. split; [eauto|]. intros (l & E & H). now injection E as <-. }
      assert (forall x, nth_error l2 i = Some x <-> option_map canon (nth_error vs (j + i * length ts)) = Some x) as K2.
      { intros x. rewrite <- nth_error_map, <- (C2 j t Ej i x). unfold cell. rewrite G2. split; [eauto|]. intros (l & E & H). now injection E as <-. }
      destruct (nth_error vs (j + i * length ts)) as [y|] eqn:Ey; cbn [option_map] in K2.
      * rewrite (proj2 (K1 y) eq_refl), (proj2 (K2 _) eq_refl). reflexivity.
      * destruct (nth_error l1 i) as [x|]; [discriminate (proj1 (K1 x) eq_refl)|]. destruct (nth_error l2 i) as [x|]; [discriminate (proj1 (K2 x) eq_refl)|]. reflexivity.
  - assert (forall b, Permutation (map lower (all_names es)) (b_keys b) -> get_full n b = Raise KeyErr) as K.
    { intros b P. unfold get_full. rewrite (proj2 (dget_None _ str_eqb_spec _ _)); [reflexivity|]. intros X. apply Hi. eapply Permutation_in; [symmetry; exact P|exact X]. }
    assert (forall b, WF b -> Permutation (map lower (all_names es)) (b_keys b) -> get_loop_names n b = Raise KeyErr) as K'.
    { intros b W P. unfold get_loop_names. destruct (find_loop n b) as [k|] eqn:E; [|reflexivity]. exfalso. apply Hi.
      apply (wf_find_loop_key b n k W) in E. apply has_key_In in E. eapply Permutation_in; [symmetry; exact P|exact E]. }
    rewrite (K' b1), (K' b2) by assumption. split; [reflexivity|]. split; [exact Hsp|]. unfold get_item. rewrite (K b1 P1), (K b2 P2). now destruct (str_eqb n (u "saves")).
Qed.

(** ** Every block with even columns shows its entries *)
Lemma rows_hold b ts R : is_table b (map lower ts) R -> exists vs, holds_rows b ts vs.
Proof.
  intros Ht. destruct (table_values b _ R Ht) as (cols & _ & _ & HF & Hl).
  pose proof (Forall2_len _ _ _ HF) as Hlen. rewrite map_length in Hlen.
  assert (length ts <> 0) as Hn. { destruct Ht as [Hne _]. destruct ts; [now contradiction Hne|discriminate]. }
  destruct (zip_rows_spec R cols Hl) as [Hz Hr]. exists (concat (zip_rows R cols)).
  assert (Forall (fun r => length r = length ts) (zip_rows R cols)) as HL.
  { apply Forall_forall. intros r Hi. apply In_nth_error in Hi. destruct Hi as [i Ei]. specialize (Hr i r Ei). apply Forall2_len in Hr. lia. }
  assert (length (concat (zip_rows R cols)) = R * length ts) as Hc.
  { rewrite <- Hz at 2. clear -HL. induction HL as [|r rows H HL IH]; [reflexivity|]. cbn [concat length]. rewrite app_length, IH. lia. }
  assert (length (concat (zip_rows R cols)) / length ts = R) as HR by (rewrite Hc; now apply Nat.div_mul).
  split; [rewrite HR; exact Ht|]. intros j n En i v.
  assert (j < length ts) as Hj by (apply nth_error_Some; congruence).
  rewrite (concat_nth (length ts)) by assumption.
  assert (exists c, nth_error cols j = Some c /\ get_item n b = Ret (VList c) /\ length c = R) as (c & Ec & Eg & Lc).
  { assert (nth_error (map lower ts) j = Some (lower n)) as En' by (rewrite nth_error_map, En; reflexivity).
    clear -HF En' Hl. revert j En'. induction HF as [|x y l l' H HF IH]; intros j En'; [destruct j; discriminate|].
    destruct j as [|j]; [injection En' as ->; exists y; split; [reflexivity|split; [now apply get_item_spelled|apply Hl; now left]]|].
    apply IH; [|exact En']. intros c Hc. apply Hl. now right. }
  split.
  - intros (l & E & Hi). rewrite Eg in E. injection E as <-.
    assert (i < R) as HiR by (rewrite <- Lc; apply nth_error_Some; congruence).
    destruct (nth_error (zip_rows R cols) i) as [r|] eqn:Er; [|apply nth_error_None in Er; lia].
    specialize (Hr i r Er). clear -Hr Ec Hi. revert j Ec. induction Hr as [|x y l l' H HF IH]; intros j Ec; [destruct j; discriminate|].
    destruct j as [|j]; [injection Ec as ->; cbn; congruence|]. now apply IH.
  - destruct (nth_error (zip_rows R cols) i) as [r|] eqn:Er; [|discriminate]. intros Hv. exists c. split; [exact Eg|].
    specialize (Hr i r Er). clear -Hr Ec Hv. revert j Ec Hv. induction Hr as [|x y l l' H HF IH]; intros j Ec Hv; [destruct j; discriminate|].
    destruct j as [|j]; [injection Ec as ->; cbn in Hv; congruence|]. eapply IH; eauto.
Qed.
Lemma spelling_of b n : WF b -> In n (b_keys b) -> exists t, dget str_eqb n (b_true b) = Some t /\ lower t = n.
Proof.
  intros W Hn. destruct (dget str_eqb n (b_true b)) as [t|] eqn:E.
  - exists t. split; [reflexivity|]. apply (wf_case b W). exact (dget_In _ str_eqb_spec _ _ _ E).
  - apply (dget_None _ str_eqb_spec) in E. exfalso. apply E. eapply Permutation_in; [symmetry; apply (wf_true b W)|exact Hn].
Qed.
Lemma block_shows b : WF b -> (forall k, In k (b_keys b) -> exists v, get_item k b = Ret v) ->
  (forall k cols, In (k, cols) (b_loops b) -> exists R, is_table b cols R) ->
  exists es, Forall2 (shows b) (b_order b) es.
Proof.
  intros W Hv Ht.
  assert (forall it, In it (b_order b) -> exists e, shows b it e) as K.
  { intros [n|k] Hi.
    - assert (In n (printed_names b)) as Hp by (apply in_or_app; left; apply in_flat_map; exists (ON n); split; [exact Hi|now left]).
      assert (In n (b_keys b)) as Hk by now apply printed_In_keys.
      destruct (spelling_of b n W Hk) as (t & E & El). destruct (Hv n Hk) as [v Ev]. exists (Kv t v). cbn [shows]. split; [congruence|]. split; [exact E|].
      cbn [holds_item]. subst n. split; [now apply get_item_spelled|]. unfold get_loop_names.
      assert (find_loop t b = None) as ->; [|reflexivity]. apply find_loop_None. intros X.
      pose proof (Permutation_NoDup (Permutation_sym (wf_place b W)) (wf_keys b W)) as Hnd. unfold printed_names in Hnd.
      assert (In (lower t) (order_names (b_order b))) as Ho by (apply in_flat_map; exists (ON (lower t)); split; [exact Hi|now left]).
      clear -Hnd Ho X. induction (order_names (b_order b)) as [|x l IH]; [destruct Ho|]. cbn [app] in Hnd. inversion Hnd; subst.
      destruct Ho as [->|Ho]; [apply H1, in_or_app; now right|now apply IH].
    - assert (In k (order_loops (b_order b))) as Ho by (apply in_flat_map; exists (OL k); split; [exact Hi|now left]).
      assert (In k (dkeys (b_loops b))) as Hk by (eapply Permutation_in; [apply (wf_refs b W)|exact Ho]).
      unfold dkeys in Hk. apply in_map_iff in Hk. destruct Hk as ([k' cols] & E & Hk). cbn in E. subst k'.
      destruct (Ht k cols Hk) as [R HT].
      assert (forall l, incl l cols -> exists ts, map lower ts = l /\ Forall (fun t => dget str_eqb (lower t) (b_true b) = Some t) ts) as KK.
      { induction l as [|c l IH]; intros Hl; [exists []; split; [reflexivity|constructor]|].
        destruct IH as (ts & E1 & E2); [intros x Hx; apply Hl; now right|].
        assert (In c (b_keys b)) as Hc.
        { apply (printed_In_keys b _ W). apply in_or_app. right. apply in_concat. exists cols. split; [apply in_map_iff; exists (k, cols); auto|apply Hl; now left]. }
        destruct (spelling_of b c W Hc) as (t & E & El). exists (t :: ts). cbn [map]. split; [congruence|]. constructor; [congruence|exact E2]. }
      destruct (KK cols (incl_refl _)) as (ts & E1 & E2). subst cols. destruct (rows_hold b ts R HT) as [vs Hr].
      exists (Lp ts vs). cbn [shows holds_item]. split; [now apply (dget_In_NoDup _ Z.eqb_spec _ _ _ (wf_nums b W))|]. auto. }
  clear -K. induction (b_order b) as [|it o IH]; [exists []; constructor|].
  destruct IH as [es He]; [intros x Hx; apply K; now right|]. destruct (K it (or_introl eq_refl)) as [e E]. exists (e :: es). now constructor.
Qed.
