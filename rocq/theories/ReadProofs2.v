(** Proofs about whole data blocks. *)
From Coq Require Import String Ascii List NArith ZArith Bool Lia Permutation ZifyBool ZifyNat ZifyN.
From Verif Require Import PyBase PyFacts StarBlockModel StarBlockSpec StarBlockProofs StarBlockProofs2
  StarBlockProofs3 StarBlockProofs4 StarBlockProofs5 LoopModel LoopSpec LoopProofs LoopProofs2 ReadModel ReadSpec ReadProofs.
Import ListNotations.
Open Scope nat_scope.

Fixpoint nloops (its : list item) : Z :=
  match its with [] => 0 | Kv _ _ :: r => nloops r | Lp _ _ :: r => nloops r + 1 end%Z.
Lemma layout_app a c k : layout k (a ++ c) = layout k a ++ layout (k + nloops a) c.
Proof.
  revert k. induction a as [|[n v|ns vs] a IH]; intros k; cbn [app layout nloops].
  - f_equal. lia.
  - f_equal. apply IH.
  - f_equal. rewrite IH. do 2 f_equal. lia.
Qed.
Lemma loop_layout_app a c k : loop_layout k (a ++ c) = loop_layout k a ++ loop_layout (k + nloops a) c.
Proof.
  revert k. induction a as [|[n v|ns vs] a IH]; intros k; cbn [app loop_layout nloops].
  - f_equal. lia.
  - apply IH.
  - f_equal. rewrite IH. do 2 f_equal. lia.
Qed.
Lemma nloops_nonneg a : (0 <= nloops a)%Z.
Proof. induction a as [|[|] a IH]; cbn; lia. Qed.
Lemma fold_max_layout its : forall k m, (m = k - 1)%Z ->
  fold_left (fun m kl => Z.max m (fst kl)) (loop_layout k its) m = (k - 1 + nloops its)%Z.
Proof.
  induction its as [|[n v|ns vs] its IH]; intros k m Hm; cbn [loop_layout nloops fold_left fst].
  - lia.
  - now apply IH.
  - rewrite (IH (k + 1)%Z); lia.
Qed.
Lemma new_no_layout its : new_loop_no (loop_layout 1 its) = (1 + nloops its)%Z.
Proof.
  induction its as [|[n v|ns vs] its IH]; [reflexivity|exact IH|]. cbn [loop_layout new_loop_no nloops].
  change (1 + 1)%Z with 2%Z. rewrite (fold_max_layout its 2 1); lia.
Qed.
Lemma layout_nonempty its k i ns : Forall item_ok its -> In (i, ns) (loop_layout k its) -> ns <> [].
Proof.
  revert k. induction its as [|[n v|ms vs] its IH]; intros k Ho; inversion Ho; subst; cbn [loop_layout].
  - contradiction.
  - now apply IH.
  - intros [H|H]; [|eapply IH; eauto]. injection H as _ <-. destruct H1 as [H1 _]. destruct ms; [contradiction|discriminate].
Qed.

(** What is known after reading the entries [done] into an empty block. *)
Record read_state (over : bool) (mx : Z) (un : bool) (done : list item) (b : block) : Prop := mkRS {
  rs_wf : WF b; rs_over : b_over b = over; rs_max : b_max b = mx; rs_uni : b_uni b = un;
  rs_keys : b_keys b = map lower (all_names done);
  rs_true : b_true b = map (fun n => (lower n, n)) (all_names done);
  rs_order : b_order b = layout 1 done;
  rs_loops : b_loops b = loop_layout 1 done;
  rs_items : Forall (holds_item b) done }.

Lemma rs_empty over mx un : read_state over mx un [] (empty_block over mx un).
Proof. constructor; try reflexivity; [apply empty_wf|constructor]. Qed.

Lemma all_names_app a c : all_names (a ++ c) = all_names a ++ all_names c.
Proof. apply flat_map_app. Qed.
Lemma all_names_In its it n : In it its -> In n (item_names it) -> In n (all_names its).
Proof. intros H1 H2. apply in_flat_map. eauto. Qed.

(** Entries already read keep their values. *)
Lemma holds_item_frame b b' it : WF b -> WF b' -> item_ok it -> holds_item b it ->
  (forall n, In n (item_names it) -> dget str_eqb (lower n) (b_data b') = dget str_eqb (lower n) (b_data b)) ->
  (forall n, In n (item_names it) -> get_loop_names n b' = get_loop_names n b) -> holds_item b' it.
Proof.
  intros W W' Ho Hh Hd Hl. destruct it as [n v|ns vs]; cbn [holds_item item_names item_ok] in *.
  - rewrite Hl by now left. rewrite (get_item_data n b b'); [exact Hh|]. apply Hd. now left.
  - destruct Hh as [[Hne Ht] Hc].
    assert (forall n, In n ns -> get_item n b' = get_item n b) as Hg by (intros n Hn; apply get_item_data; now apply Hd).
    split.
    + split; [exact Hne|]. intros n Hn. destruct (Ht n Hn) as [H1 (l & H2 & H3)].
      apply in_map_iff in Hn. destruct Hn as (m & <- & Hm). split.
      * rewrite <- H1. transitivity (get_loop_names m b'); [apply get_loop_names_ext, lower_idem|].
        rewrite Hl by exact Hm. apply get_loop_names_ext. symmetry. apply lower_idem.
      * exists l. split; [|exact H3]. rewrite <- H2. apply get_item_data. rewrite lower_idem. now apply Hd.
    + intros j n Hj i v. rewrite <- (Hc j n Hj). unfold cell. rewrite Hg; [reflexivity|]. now apply nth_error_In in Hj.
Qed.

Definition fresh_item (done : list item) (it : item) : Prop :=
  NoDup (map lower (item_names it)) /\ forall n, In n (item_names it) -> ~ In (lower n) (map lower (all_names done)).

Lemma find_loop_snoc n b b' no lc : b_loops b' = b_loops b ++ [(no, lc)] -> ~ In (lower n) lc -> find_loop n b' = find_loop n b.
Proof.
  intros E Hn. unfold find_loop. rewrite E. f_equal.
  assert (forall ls, find (loop_has (lower n)) (ls ++ [(no, lc)]) = find (loop_has (lower n)) ls) as H.
  { induction ls as [|x ls IH]; cbn [app find].
    - assert (loop_has (lower n) (no, lc) = false) as ->; [|reflexivity]. unfold loop_has. cbn [snd].
      destruct (mem str_eqb (lower n) lc) eqn:Em; [|reflexivity]. now apply (mem_In _ str_eqb_spec) in Em.
    - destruct (loop_has (lower n) x); [reflexivity|exact IH]. }
  apply H.
Qed.
Lemma names_snoc n b b' no lc : WF b -> b_loops b' = b_loops b ++ [(no, lc)] -> ~ In (lower n) lc ->
  get_loop_names n b' = get_loop_names n b.
Proof.
  intros W E Hn. unfold get_loop_names. rewrite (find_loop_snoc n b b' no lc E Hn).
  destruct (find_loop n b) as [k|] eqn:Ef; [|reflexivity].
  destruct (wf_loop_get b n k W Ef) as (l1 & ns & l2 & _ & Hg & _). rewrite E, (dget_app Z.eqb), Hg; try reflexivity. exact Z.eqb_spec.
Qed.

Lemma read_step done it b mx un :
  read_state false mx un done b -> Forall item_ok done -> item_ok it -> loop_full it ->
  (fresh_item done it -> item_whole it ->
     exists b', read_item it b = (b', Ret tt) /\ read_state false mx un (done ++ [it]) b') /\
  (fresh_item done it -> ~ item_whole it -> snd (read_item it b) = Raise ValueErr) /\
  (~ fresh_item done it -> snd (read_item it b) = Raise StarErr).
Proof.
  intros R Hok Ho Hf. pose proof (rs_wf _ _ _ _ _ R) as W.
  assert (forall n, has_key n b = true <-> In (lower n) (map lower (all_names done))) as HK.
  { intros n. rewrite has_key_In, (rs_keys _ _ _ _ _ R). reflexivity. }
  assert (fresh_item done it -> forall n, In n (item_names it) -> has_key n b = false) as HF.
  { intros [_ Hfr] n Hn. destruct (has_key n b) eqn:E; [|reflexivity]. apply HK in E. exfalso. eapply Hfr; eauto. }
  assert (no_empty_loops b) as Hel.
  { intros k ns Hk. rewrite (rs_loops _ _ _ _ _ R) in Hk. eapply layout_nonempty; eauto. }
  assert (forall x c n, In x done -> ~ In (lower n) (map lower (all_names done)) -> In c (item_names x) -> lower c <> lower n) as Hdist.
  { intros x c n Hx Hn Hc E. apply Hn. rewrite <- E. apply in_map. eapply all_names_In; eauto. }
  assert (forall b', added (item_names it) b b' -> fresh_item done it ->
            (forall x n, In x done -> In n (item_names x) -> get_loop_names n b' = get_loop_names n b) -> Forall (holds_item b') done) as Hkeep.
  { intros b' A [_ Hfr] Hl. apply Forall_forall. intros x Hx. pose proof (rs_items _ _ _ _ _ R) as Hi.
    rewrite Forall_forall in Hi, Hok. eapply holds_item_frame; [exact W|apply (ad_wf _ _ _ A)|now apply Hok|now apply Hi| |].
    - intros n Hn. apply (ad_frame _ _ _ A). intros Hc. apply in_map_iff in Hc. destruct Hc as (c & E & Hc).
      apply (Hfr c Hc). rewrite E. apply in_map. eapply all_names_In; eauto.
    - intros n Hn. now apply (Hl x). }
  destruct it as [n v|ns vs]; cbn [item_ok loop_full item_whole read_item item_names] in *.
  - destruct Ho as [Hn Hp]. split; [|split].
    + intros Hfr _. destruct (add_pre n v b W (HF Hfr n (or_introl eq_refl))) as (b' & E & A & L & O & D).
      exists b'. split; [exact E|].
      assert (forall m, get_loop_names m b' = get_loop_names m b) as Hln by (intros m; unfold get_loop_names, find_loop; now rewrite L).
      constructor.
      * apply (ad_wf _ _ _ A).
      * rewrite (ad_over _ _ _ A). apply R.
      * rewrite (ad_max _ _ _ A). apply R.
      * rewrite (ad_uni _ _ _ A). apply R.
      * rewrite (ad_keys _ _ _ A), (rs_keys _ _ _ _ _ R), all_names_app, map_app. reflexivity.
      * rewrite (ad_true _ _ _ A), (rs_true _ _ _ _ _ R), all_names_app, map_app. reflexivity.
      * rewrite O, (rs_order _ _ _ _ _ R), layout_app. reflexivity.
      * rewrite L, (rs_loops _ _ _ _ _ R), loop_layout_app. cbn [loop_layout]. now rewrite app_nil_r.
      * apply Forall_app. split; [apply Hkeep; auto|]. constructor; [|constructor]. cbn [holds_item]. split.
        -- eapply get_item_entry; [now apply dataname_not_saves|exact D|now apply parsed_entry].
        -- rewrite Hln. unfold get_loop_names. destruct (find_loop n b) as [k|] eqn:Ef; [|reflexivity].
           apply (wf_find_loop_key b _ _ W) in Ef. rewrite (HF Hfr n (or_introl eq_refl)) in Ef. discriminate.
    + intros _ H. exfalso. now apply H.
    + intros Hnf. rewrite add_pre_dup; [reflexivity| |apply R]. apply HK.
      destruct (in_dec (list_eq_dec N.eq_dec) (lower n) (map lower (all_names done))) as [Hi|Hi]; [exact Hi|].
      exfalso. apply Hnf. split; [cbn; constructor; [intros []|constructor]|]. intros m [<-|[]]. exact Hi.
  - destruct Ho as (Hne & Hvne & Hnm & Hp). split; [|split].
    + intros Hfr Hw. destruct Hfr as [Hnd Hfr'] eqn:Efr. clear Efr.
      destruct (makeloop_good ns vs b W Hne Hvne Hnm Hp Hf Hnd (HF (conj Hnd Hfr')) Hw) as (b' & E & A & Hh & LO).
      destruct (LO Hel) as [L O].
      exists b'. split; [exact E|]. constructor.
      * apply (ad_wf _ _ _ A).
      * rewrite (ad_over _ _ _ A). apply R.
      * rewrite (ad_max _ _ _ A). apply R.
      * rewrite (ad_uni _ _ _ A). apply R.
      * rewrite (ad_keys _ _ _ A), (rs_keys _ _ _ _ _ R), all_names_app, map_app. cbn [all_names flat_map item_names]. now rewrite app_nil_r.
      * rewrite (ad_true _ _ _ A), (rs_true _ _ _ _ _ R), all_names_app, map_app. cbn [all_names flat_map item_names]. now rewrite app_nil_r.
      * rewrite O, (rs_order _ _ _ _ _ R), (rs_loops _ _ _ _ _ R), new_no_layout, layout_app. reflexivity.
      * rewrite L, (rs_loops _ _ _ _ _ R), new_no_layout, loop_layout_app. reflexivity.
      * apply Forall_app. split; [|constructor; [exact Hh|constructor]]. apply Hkeep; auto.
        intros x m Hx Hm. eapply names_snoc; [exact W|exact L|]. intros Hc. apply in_map_iff in Hc. destruct Hc as (c & Ec & Hc).
        apply (Hfr' c Hc). rewrite Ec. apply in_map. eapply all_names_In; eauto.
    + intros Hfr Hw. destruct Hfr as [Hnd Hfr'] eqn:Efr. clear Efr.
      apply makeloop_bad; auto.
    + intros Hnf. apply makeloop_dup; auto; [apply R|].
      destruct (ListDec.NoDup_dec (list_eq_dec N.eq_dec) (map lower ns)) as [Hnd|Hnd]; [|now left]. right.
      destruct (existsb (fun n => has_key n b) ns) eqn:Ex.
      * apply existsb_exists in Ex. exact Ex.
      * exfalso. apply Hnf. split; [exact Hnd|]. intros n Hn Hi. apply HK in Hi.
        assert (existsb (fun n => has_key n b) ns = true) as X by (apply existsb_exists; eauto). congruence.
Qed.

Lemma fresh_dec done it : fresh_item done it \/ ~ fresh_item done it.
Proof.
  destruct (ListDec.NoDup_dec (list_eq_dec N.eq_dec) (map lower (item_names it))) as [Hnd|Hnd]; [|right; now intros [H _]].
  destruct (existsb (fun n => mem str_eqb (lower n) (map lower (all_names done))) (item_names it)) eqn:E.
  - right. intros [_ H]. apply existsb_exists in E. destruct E as (n & Hn & Hm). apply (mem_In _ str_eqb_spec) in Hm. now apply (H n).
  - left. split; [exact Hnd|]. intros n Hn Hi.
    assert (existsb (fun n => mem str_eqb (lower n) (map lower (all_names done))) (item_names it) = true) as X; [|congruence].
    apply existsb_exists. exists n. split; [exact Hn|]. now apply (mem_In _ str_eqb_spec).
Qed.
Lemma whole_dec it : item_whole it \/ ~ item_whole it.
Proof.
  destruct it as [n v|ns vs]; [now left|]. cbn. unfold whole_rows. destruct ns as [|n ns].
  - destruct vs as [|v vs]; [left; exists 0%nat; reflexivity|right; intros [q Hq]; cbn in Hq; lia].
  - destruct (PeanoNat.Nat.eq_dec (length vs mod length (n :: ns)) 0) as [H|H].
    + left. apply PeanoNat.Nat.mod_divide in H; [exact H|cbn; lia].
    + right. intros Hd. apply H. apply PeanoNat.Nat.mod_divide; [cbn; lia|exact Hd].
Qed.
Lemma NoDup_snoc_iff done it : NoDup (map lower (all_names (done ++ [it]))) <-> NoDup (map lower (all_names done)) /\ fresh_item done it.
Proof.
  rewrite all_names_app, map_app. cbn [all_names flat_map]. rewrite app_nil_r. rewrite NoDup_app_iff. unfold fresh_item. split.
  - intros (H1 & H2 & H3). split; [exact H1|]. split; [exact H2|]. intros n Hn Hi. eapply H3; [exact Hi|]. now apply in_map.
  - intros (H1 & H2 & H3). split; [exact H1|]. split; [exact H2|]. intros x Hx Hi. apply in_map_iff in Hi. destruct Hi as (n & <- & Hn). now apply (H3 n).
Qed.

Lemma read_items_spec mx un : forall its done b, read_state false mx un done b ->
  Forall item_ok (done ++ its) -> Forall loop_full its ->
  (NoDup (map lower (all_names (done ++ its))) -> Forall item_whole its ->
     exists b', read_items its b = (b', Ret tt) /\ read_state false mx un (done ++ its) b') /\
  (~ NoDup (map lower (all_names (done ++ its))) \/ ~ Forall item_whole its -> NoDup (map lower (all_names done)) ->
     snd (read_items its b) = Raise StarErr \/ snd (read_items its b) = Raise ValueErr).
Proof.
  induction its as [|it its IH]; intros done b R Ho Hf.
  - rewrite app_nil_r. split.
    + intros _ _. exists b. now split.
    + intros [H|H] Hd; [contradiction|]. exfalso. apply H. constructor.
  - inversion Hf as [|? ? Hf1 Hf2]; subst. apply Forall_app in Ho. destruct Ho as [Hod Ho]. inversion Ho as [|? ? Ho1 Ho2]; subst.
    destruct (read_step done it b mx un R Hod Ho1 Hf1) as (S1 & S2 & S3).
    assert (done ++ it :: its = (done ++ [it]) ++ its) as Eapp by now rewrite <- app_assoc.
    rewrite Eapp. split.
    + intros Hnd Hw. inversion Hw as [|? ? Hw1 Hw2]; subst.
      assert (fresh_item done it) as Hfr.
      { apply NoDup_snoc_iff. rewrite all_names_app, map_app in Hnd. apply NoDup_app_iff in Hnd. apply Hnd. }
      destruct (S1 Hfr Hw1) as (b1 & E1 & R1). destruct (IH (done ++ [it]) b1 R1) as [I1 _]; [rewrite <- Eapp; apply Forall_app; auto|exact Hf2|].
      destruct (I1 Hnd Hw2) as (b' & E & R'). exists b'. cbn [read_items]. rewrite E1. now split.
    + intros Hbad Hd. cbn [read_items].
      destruct (fresh_dec done it) as [Hfr|Hfr].
      2:{ specialize (S3 Hfr). left. destruct (read_item it b) as [b1 [|]]; cbn [snd] in *; [discriminate|exact S3]. }
      destruct (whole_dec it) as [Hw1|Hw1].
      2:{ specialize (S2 Hfr Hw1). right. destruct (read_item it b) as [b1 [|]]; cbn [snd] in *; [discriminate|exact S2]. }
      destruct (S1 Hfr Hw1) as (b1 & E1 & R1). rewrite E1.
      destruct (IH (done ++ [it]) b1 R1) as [_ I2]; [rewrite <- Eapp; apply Forall_app; auto|exact Hf2|].
      apply I2; [|now apply NoDup_snoc_iff].
      destruct Hbad as [H|H]; [now left|]. right. intros X. apply H. now constructor.
Qed.

Lemma read_items_empty its over mx un : over = false -> Forall item_ok its -> Forall loop_full its ->
  (NoDup (map lower (all_names its)) -> Forall item_whole its ->
     exists b', read_items its (empty_block over mx un) = (b', Ret tt) /\ read_state false mx un its b') /\
  (~ NoDup (map lower (all_names its)) \/ ~ Forall item_whole its ->
     snd (read_items its (empty_block over mx un)) = Raise StarErr \/ snd (read_items its (empty_block over mx un)) = Raise ValueErr).
Proof.
  intros -> Ho Hf. destruct (read_items_spec mx un its [] _ (rs_empty false mx un) Ho Hf) as [H1 H2]. cbn [app] in *.
  split; [exact H1|]. intros H. apply H2; [exact H|constructor].
Qed.

Definition short_names (mx : Z) (its : list item) : Prop :=
  (0 < mx)%Z -> forall n, In n (all_names its) -> (Z.of_nat (length n) <= mx)%Z.
Lemma setmax_spec b its : b_keys b = map lower (all_names its) ->
  (short_names (b_max b) its -> setmaxnamelength (b_max b) b = (b, Ret tt)) /\
  (~ short_names (b_max b) its -> snd (setmaxnamelength (b_max b) b) = Raise StarErr).
Proof.
  intros HK. unfold setmaxnamelength, short_names. cbv zeta.
  assert (existsb (fun k => (b_max b <? Z.of_nat (length k))%Z) (b_keys b) = true <->
          exists n, In n (all_names its) /\ (b_max b < Z.of_nat (length n))%Z) as HE.
  { rewrite existsb_exists, HK. split.
    - intros (k & Hk & Hl). apply in_map_iff in Hk. destruct Hk as (n & <- & Hn). exists n. rewrite lower_length in Hl. split; [exact Hn|lia].
    - intros (n & Hn & Hl). exists (lower n). rewrite lower_length. split; [now apply in_map|lia]. }
  destruct (Z.ltb_spec 0 (b_max b)) as [Hm|Hm]; cbn [andb].
  - match goal with |- context [if ?c then _ else _] => destruct c eqn:E end.
    + split; [|reflexivity]. intros H. exfalso. destruct (proj1 HE eq_refl) as (n & Hn & Hl). specialize (H Hm n Hn). lia.
    + split; [now destruct b|]. intros H. exfalso. apply H. intros _ n Hn.
      destruct (Z.leb_spec (Z.of_nat (length n)) (b_max b)) as [|Hl]; [assumption|].
      exfalso. assert (false = true) by (apply HE; eauto). discriminate.
  - split; [now destruct b|]. intros H. exfalso. apply H. lia.
Qed.

Lemma short_dec mx its : short_names mx its \/ ~ short_names mx its.
Proof.
  unfold short_names. destruct (Z.ltb_spec 0 mx) as [Hm|Hm]; [|left; lia].
  destruct (existsb (fun n => (mx <? Z.of_nat (length n))%Z) (all_names its)) eqn:E.
  - right. intros H. apply existsb_exists in E. destruct E as (n & Hn & Hl). specialize (H Hm n Hn). lia.
  - left. intros _ n Hn. destruct (Z.leb_spec (Z.of_nat (length n)) mx) as [|Hl]; [assumption|].
    assert (existsb (fun n => (mx <? Z.of_nat (length n))%Z) (all_names its) = true) as X; [|congruence].
    apply existsb_exists. exists n. split; [exact Hn|lia].
Qed.

Lemma read_block_spec its mx un : Forall item_ok its -> Forall loop_full its ->
  (NoDup (map lower (all_names its)) /\ Forall item_whole its /\ short_names mx its ->
     exists b', read_block its (empty_block false mx un) = (b', Ret tt) /\ read_state false mx un its b') /\
  (~ (NoDup (map lower (all_names its)) /\ Forall item_whole its /\ short_names mx its) ->
     snd (read_block its (empty_block false mx un)) = Raise StarErr \/ snd (read_block its (empty_block false mx un)) = Raise ValueErr).
Proof.
  intros Ho Hf. destruct (read_items_empty its false mx un eq_refl Ho Hf) as [H1 H2]. unfold read_block. split.
  - intros (Hnd & Hw & Hs). destruct (H1 Hnd Hw) as (b' & E & R). exists b'. rewrite E.
    rewrite <- (rs_max _ _ _ _ _ R) in Hs. rewrite (proj1 (setmax_spec b' its (rs_keys _ _ _ _ _ R)) Hs). now split.
  - intros Hbad. destruct (ListDec.NoDup_dec (list_eq_dec N.eq_dec) (map lower (all_names its))) as [Hnd|Hnd].
    2:{ destruct (H2 (or_introl Hnd)) as [H|H]; destruct (read_items its (empty_block false mx un)) as [b' [|]]; cbn [snd] in *; try discriminate; auto. }
    assert (Forall item_whole its \/ ~ Forall item_whole its) as [Hw|Hw].
    { clear. induction its as [|it its IH]; [left; constructor|]. destruct (whole_dec it) as [H|H].
      - destruct IH as [IH|IH]; [left; now constructor|right; intros X; apply IH; now inversion X].
      - right. intros X. apply H. now inversion X. }
    2:{ destruct (H2 (or_intror Hw)) as [H|H]; destruct (read_items its (empty_block false mx un)) as [b' [|]]; cbn [snd] in *; try discriminate; auto. }
    destruct (H1 Hnd Hw) as (b' & E & R). rewrite E. left.
    apply (proj2 (setmax_spec b' its (rs_keys _ _ _ _ _ R))). rewrite (rs_max _ _ _ _ _ R). intros Hs. apply Hbad. auto.
Qed.

Lemma read_ok_dec its mx : let G := NoDup (map lower (all_names its)) /\ Forall item_whole its /\ short_names mx its in G \/ ~ G.
Proof.
  intros G. unfold G. destruct (ListDec.NoDup_dec (list_eq_dec N.eq_dec) (map lower (all_names its))) as [Hnd|Hnd]; [|tauto].
  assert (Forall item_whole its \/ ~ Forall item_whole its) as [Hw|Hw]; [|destruct (short_dec mx its); tauto|tauto].
  clear. induction its as [|it its IH]; [left; constructor|]. destruct (whole_dec it) as [H|H].
  - destruct IH as [IH|IH]; [left; now constructor|right; intros X; apply IH; now inversion X].
  - right. intros X. apply H. now inversion X.
Qed.
Lemma read_block_full its mx un : Forall item_ok its -> Forall loop_full its ->
  let r := read_block its (empty_block false mx un) in
  (snd r = Ret tt <-> NoDup (map lower (all_names its)) /\ Forall item_whole its /\ short_names mx its) /\
  (snd r = Ret tt ->
     WF (fst r) /\ Forall (holds_item (fst r)) its /\
     b_keys (fst r) = map lower (all_names its) /\
     b_true (fst r) = map (fun n => (lower n, n)) (all_names its) /\
     b_order (fst r) = layout 1 its /\ b_loops (fst r) = loop_layout 1 its) /\
  (snd r <> Ret tt -> snd r = Raise StarErr \/ snd r = Raise ValueErr).
Proof.
  intros Ho Hf r. destruct (read_block_spec its mx un Ho Hf) as [H1 H2]. fold r in H1, H2.
  destruct (read_ok_dec its mx) as [HG|HG].
  - destruct (H1 HG) as (b' & E & R). rewrite E. cbn [fst snd]. split; [tauto|]. split; [|congruence].
    intros _. destruct R. auto 10.
  - specialize (H2 HG). split; [split; [destruct H2 as [->| ->]; discriminate|tauto]|]. split; [destruct H2 as [->| ->]; discriminate|tauto].
Qed.

Lemma read_block_duplicate its mx un a c n m :
  Forall item_ok its -> Forall loop_full its ->
  nth_error (all_names its) a = Some n -> nth_error (all_names its) c = Some m -> a <> c -> lower n = lower m ->
  exists e, snd (read_block its (empty_block false mx un)) = Raise e.
Proof.
  intros Ho Hf Ha Hc Hne E. destruct (read_block_spec its mx un Ho Hf) as [_ H2].
  destruct H2 as [H|H]; [|rewrite H; eauto|rewrite H; eauto]. intros (Hnd & _). apply Hne.
  rewrite NoDup_nth_error in Hnd. apply Hnd.
  - rewrite map_length. apply nth_error_Some. congruence.
  - erewrite map_nth_error by exact Ha. erewrite map_nth_error by exact Hc. congruence.
Qed.

Lemma makeloop_nameless vs b : WF b -> vs <> [] -> snd (makeloop [] vs b) = Ret tt /\
  forall m, get_item m (fst (makeloop [] vs b)) = get_item m b.
Proof.
  intros W Hne. unfold makeloop. pose proof (last_of_spec vs) as H. destruct (last_of vs) as [x|]; [|contradiction].
  cbn [add_columns length]. rewrite (create_loop_success [] (-1) b b W eq_refl). split; [reflexivity|].
  intros m. reflexivity.
Qed.
