(** Reading a file written by hand and writing it in another grammar. *)
From Coq Require Import String Ascii List NArith ZArith Bool Lia Permutation PeanoNat.
From Verif Require Import PyBase PyFacts StarBlockModel StarBlockSpec StarBlockProofs StarBlockProofs2 StarBlockProofs3 LoopSpec ScanModel ReadModel ReadSpec WriteModel WriteProofs4 ParseModel CollectionModel FileModel
  CollectionSpec ParseSpec FileSpec CollectionProofs CollectionProofs2 CollectionProofs3 FileProofs2 FileProofs3 ParseProofs6 GrammarSpec GrammarProofs GrammarProofs2 GrammarProofs3 GrammarProofs4 WholeSpec WholeProofs7 HandSpec HandProofs HandProofs2 ConvertSpec.
Import ListNotations.
Open Scope nat_scope.

(** ** Blocks *)
Lemma name_of its n : In n (all_names its) -> exists it, In it its /\ In n (ReadSpec.item_names it).
Proof. intros H. apply in_flat_map in H. exact H. Qed.
Lemma layout_loops its : forall k k0 cols, In (k0, cols) (loop_layout k its) -> exists ns vs, In (Lp ns vs) its /\ cols = map lower ns.
Proof.
  induction its as [|[m v|ns vs] its IH]; intros k k0 cols H; cbn [loop_layout] in H; [destruct H| |].
  - destruct (IH _ _ _ H) as (ns & vs & H1 & H2). exists ns, vs. split; [now right|exact H2].
  - destruct H as [[= <- <-]|H]; [exists ns, vs; split; [now left|reflexivity]|]. destruct (IH _ _ _ H) as (ns' & vs' & H1 & H2). exists ns', vs'. split; [now right|exact H2].
Qed.
Lemma layout_ge its : forall k j cols, dget Z.eqb j (loop_layout k its) = Some cols -> (k <= j)%Z.
Proof.
  induction its as [|[m v|ns vs] its IH]; intros k j cols H; cbn [loop_layout dget] in H; [discriminate|now apply (IH k j cols)|].
  destruct (Z.eqb_spec j k) as [->|N]; [lia|]. apply IH in H. lia.
Qed.
Lemma places_at b : forall its k, (forall j cols, dget Z.eqb j (loop_layout k its) = Some cols -> dget Z.eqb j (b_loops b) = Some cols) -> Forall2 (place_of b) (layout k its) its.
Proof.
  induction its as [|[m v|ns vs] its IH]; intros k H; cbn [layout]; [constructor| |].
  - constructor; [reflexivity|]. apply IH. exact H.
  - constructor.
    + apply H. cbn [loop_layout dget]. now rewrite Z.eqb_refl.
    + apply IH. intros j cols Hj. apply H. cbn [loop_layout dget]. pose proof (layout_ge _ _ _ _ Hj). destruct (Z.eqb_spec j k) as [->|N]; [lia|exact Hj].
Qed.
Lemma held_name b it n : holds_item b it -> In n (ReadSpec.item_names it) -> match it with Kv m v => n = m | Lp ns _ => get_loop_names (lower n) b = Ret (map lower ns) end.
Proof.
  destruct it as [m v|ns vs]; cbn [holds_item ReadSpec.item_names]; [intros _ [->|[]]; reflexivity|].
  intros [[_ T] _] H. apply (T (lower n)). now apply in_map.
Qed.
Lemma dataname_95 n : is_dataname n -> exists r, n = 95%N :: r.
Proof. intros [r ->]. now exists r. Qed.
Lemma cell_lower b n i v : is_dataname n -> cell b (lower n) i v <-> cell b n i v.
Proof.
  intros Hn. split; intros (l & H1 & H2); exists l; (split; [|exact H2]); [now apply get_item_spelled|]. apply get_item_lower_of; [now apply dataname_95|exact H1].
Qed.
Lemma col_item ns n' : In n' (map lower ns) -> exists j n, nth_error ns j = Some n /\ n' = lower n.
Proof. intros H. apply in_map_iff in H as (n & <- & H). apply In_nth_error in H as [j H]. now exists j, n. Qed.
Lemma nth_lower ns j n' : nth_error (map lower ns) j = Some n' -> exists n, nth_error ns j = Some n /\ n' = lower n.
Proof. intros H. rewrite nth_error_map in H. destruct (nth_error ns j) as [n|]; [|discriminate]. injection H as <-. now exists n. Qed.
Lemma part_good g maxout mx its b : WF b -> Forall (holds_item b) its -> b_keys b = map lower (all_names its) -> b_true b = map (fun n => (lower n, n)) (all_names its) -> b_loops b = loop_layout 1 its ->
  Forall item_fits its -> Forall is_dataname (all_names its) -> ((0 < mx)%Z -> forall m, In m (all_names its) -> (Z.of_nat (length m) <= mx)%Z) ->
  Forall (round_trips g maxout []) its -> good_block g maxout mx b.
Proof.
  intros W Hh Hk Ht Hl Hf Hd Hm Hr. rewrite Forall_forall in Hh, Hf, Hd, Hr. split; [exact W|]. split; [|split].
  - intros n t H. apply (dget_In _ str_eqb_spec) in H. rewrite Ht in H. apply in_map_iff in H as (m & [= <- <-] & H). split; [|intros Hp; now apply Hm].
    apply name_of in H as (it & Hi & Hn). destruct (Hr it Hi) as [_ R]. destruct it as [x v|ns vs]; cbn [ReadSpec.item_names legible_entry] in *.
    + destruct Hn as [->|[]]. exact (proj1 R).
    + destruct R as (_ & _ & R & _). rewrite Forall_forall in R. now apply R.
  - intros n' Hn' HK. rewrite Hk in Hn'. apply in_map_iff in Hn' as (n & <- & Hn). pose proof (Hd n Hn) as Dn. apply name_of in Hn as (it & Hi & Hn).
    pose proof (held_name b it n (Hh it Hi) Hn) as X. destruct it as [x v|ns vs]; [subst x|congruence].
    destruct (Hh _ Hi) as [G _]. destruct (Hr _ Hi) as [S [_ R]]. exists v. split; [apply get_item_lower_of; [now apply dataname_95|exact G]|].
    split; [apply (R None); now left|]. destruct v; try exact I. rewrite lower_length. exact (proj1 S).
  - intros k cols HIn. rewrite Hl in HIn. apply layout_loops in HIn as (ns & vs & Hi & ->). destruct (Hh _ Hi) as [T C]. destruct (Hf _ Hi) as (Fn & [q Fw] & Fe). destruct (Hr _ Hi) as [S (_ & Rv & _ & R & E)].
    assert (forall n, In n ns -> is_dataname n) as Dn. { intros n Hn. apply Hd. apply in_flat_map. exists (Lp ns vs). now split. }
    assert (0 < length ns) as L0 by (destruct ns; [congruence|cbn; lia]).
    assert (length vs / length ns = q) as Eq by (rewrite Fw; apply Nat.div_mul; lia). rewrite Eq in T.
    assert (0 < q) as Q0 by (destruct q; [cbn in Fw; destruct vs; [congruence|discriminate Fw]|lia]).
    rewrite Forall_forall in R.
    assert (forall j n i v, nth_error ns j = Some n -> cell b (lower n) i v -> nth_error vs (j + i * length ns) = Some v) as Cv.
    { intros j n i v Hj Hc. apply (C j n Hj). apply cell_lower; [apply Dn; eapply nth_error_In; exact Hj|exact Hc]. }
    exists q. split; [exact Q0|]. split; [exact T|]. split; [|split].
    + intros n' i v Hn' Hc. apply col_item in Hn' as (j & n & Hj & ->). apply (R v); [|now left]. eapply nth_error_In. exact (Cv j n i v Hj Hc).
    + destruct S as [[S _]|S].
      * left. rewrite Forall_forall in S. intros n' i v Hn' Hc. apply col_item in Hn' as (j & n & Hj & ->). apply S. eapply nth_error_In. exact (Cv j n i v Hj Hc).
      * right. intros j n' m' i v w Hj Hj' Hv Hw. apply nth_lower in Hj as (n & Hj & ->). apply nth_lower in Hj' as (m & Hj' & ->).
        apply (S i j v w); [apply nth_error_Some; congruence|exact (Cv _ _ _ _ Hj Hv)|exact (Cv _ _ _ _ Hj' Hw)].
    + intros n' v Hn' Hc. rewrite map_length in Hn'. apply nth_lower in Hn' as (n & Hj & ->). pose proof (Cv _ _ _ _ Hj Hc) as Hv.
      assert (exists vs0, vs = vs0 ++ [v]) as [vs0 Ev].
      { destruct (exists_last Rv) as (l & x & El). exists l. rewrite El in Hv. rewrite nth_error_app2 in Hv.
        - replace (length ns - 1 + (q - 1) * length ns - length l) with 0 in Hv; [injection Hv as ->; exact El|]. rewrite El, app_length in Fw. cbn in Fw. destruct q as [|q]; [lia|]. cbn in *. nia.
        - rewrite El, app_length in Fw. cbn in Fw. destruct q as [|q]; [lia|]. cbn in *. nia. }
      assert (canon v <> VSL []) as Hc0. { intros X. apply (E (map canon vs0)). rewrite Ev, map_app. cbn. now rewrite X. }
      split; intros ->; apply Hc0; reflexivity.
Qed.

(** ** What is read back *)
Fixpoint parsed_canon v (H : parsed v) {struct H} : canon v = v.
Proof.
  destruct H as [s|l H|d H]; [reflexivity| |]; cbn [canon]; f_equal.
  - induction H as [|x l Hx H IH]; [reflexivity|]. cbn [map]. rewrite IH. f_equal. now apply parsed_canon.
  - induction H as [|[k x] l Hx H IH]; [reflexivity|]. cbn [map fst snd]. rewrite IH. f_equal. f_equal. now apply parsed_canon.
Qed.
Lemma again_holds b b' it : same_read b b' -> holds_item b it -> item_given it -> holds_item b' it.
Proof.
  intros S H G. destruct it as [n v|ns vs]; cbn [holds_item item_given] in *.
  - destruct H as [H1 H2]. destruct (S n) as (S1 & _ & S3). rewrite S1, S3, H1, H2. cbn [is_ret read_back]. split; [|reflexivity]. f_equal. now apply parsed_canon.
  - destruct H as [[Hn T] C]. destruct G as [_ G]. rewrite Forall_forall in G.
    assert (forall n l, get_loop_names n b = Ret (map lower ns) -> get_item n b = Ret (VList l) -> get_item n b' = Ret (VList (map canon l))) as K.
    { intros n l H1 H2. destruct (S n) as (_ & _ & S3). rewrite S3, H1, H2. reflexivity. }
    split.
    + split; [exact Hn|]. intros n Hin. destruct (T n Hin) as (T1 & l & T2 & T3). destruct (S n) as (S1 & _ & _). rewrite S1. split; [exact T1|].
      exists (map canon l). split; [now apply K|]. now rewrite map_length.
    + intros j n Hj. assert (In (lower n) (map lower ns)) as Hin by (apply in_map; eapply nth_error_In; exact Hj). destruct (T _ Hin) as (T1 & l & T2 & T3).
      assert (get_loop_names n b = Ret (map lower ns)) as T1' by (rewrite <- T1; apply get_loop_names_ext; now rewrite lower_idem).
      pose proof (get_item_spelled n b _ T2) as T2'. pose proof (K n l T1' T2') as T4. intros i v. rewrite <- (C j n Hj i v). split; intros (l' & H1 & H2).
      * rewrite T4 in H1. injection H1 as <-. rewrite nth_error_map in H2. destruct (nth_error l i) as [w|] eqn:E; [|discriminate]. injection H2 as <-.
        exists l. split; [exact T2'|]. rewrite E. f_equal. symmetry. apply parsed_canon, G. apply (nth_error_In vs (j + i * length ns)). apply (C j n Hj). exists l. now split.
      * rewrite T2' in H1. injection H1 as <-. exists (map canon l). split; [exact T4|]. rewrite nth_error_map, H2. cbn. f_equal. apply parsed_canon, G.
        apply (nth_error_In vs (j + i * length ns)). apply (C j n Hj). exists l. now split.
Qed.
Lemma again_places b b' its : forall o o', Forall2 (place_of b) o its -> Forall2 (same_place b b') o o' -> Forall2 (place_of b') o' its.
Proof.
  induction its as [|it its IH]; intros o o' H1 H2; inversion H1; subst; inversion H2; subst; constructor; [|eapply IH; eassumption].
  match goal with H : place_of b ?x it, H' : same_place b b' ?x ?y |- _ => destruct x, y, it; cbn [place_of same_place] in *; try contradiction; try congruence; destruct H' as (cols & E1 & E2); congruence end.
Qed.
Lemma true_names (ns : list str) k t : NoDup (map lower ns) -> dget str_eqb k (map (fun n => (lower n, n)) ns) = Some t <-> In t ns /\ k = lower t.
Proof.
  intros N. split.
  - intros H. apply (dget_In _ str_eqb_spec) in H. apply in_map_iff in H as (n & [= <- <-] & H). now split.
  - intros [H ->]. apply (dget_In_NoDup _ str_eqb_spec); [unfold dkeys; now rewrite map_map|]. apply in_map_iff. now exists t.
Qed.

(** ** The collection that is written *)
Definition pkey (x : part) : str := lower (part_name x).
Definition ppar (x : part) : option str := match x with (_, p, _) => p end.
Lemma frame_par h l x : In x (frames_in h l) -> ppar x = Some h.
Proof. intros H. apply in_flat_map in H as ([its|n k] & _ & H); [destruct H|destruct H as [<-|[]]; reflexivity]. Qed.
Lemma part_par ds x h : In x (flat_map parts ds) -> ppar x = Some h -> exists d, In d ds /\ h = d_name d /\ In x (frames_in (d_name d) (d_contents d)).
Proof.
  intros H E. apply in_flat_map in H as (d & Hd & [<-|H]); [discriminate E|]. exists d. split; [exact Hd|]. split; [|exact H]. apply frame_par in H. congruence.
Qed.
Lemma nodup_right {A} (l m : list A) : NoDup (l ++ m) -> NoDup m.
Proof. induction l as [|a l IH]; [auto|]. cbn. intros H. apply NoDup_cons_iff in H as [_ H]. auto. Qed.
Section Coll.
  Variable c : coll.
  Variable ds : list dblock.
  Hypothesis W : CWF c.
  Hypothesis N : NoDup (map pkey (flat_map parts ds)).
  Hypothesis E : forall x, In x (flat_map parts ds) -> entry_of c (pkey x) = Some (PC (part_name x) (option_map lower (ppar x))).
  Lemma entry_in k e : In (k, e) (c_child c) <-> entry_of c k = Some e.
  Proof using W.
    split; [|apply (dget_In _ str_eqb_spec)]. intros H. apply (dget_In_NoDup _ str_eqb_spec); [exact (table_NoDup c W)|exact H].
  Qed.
  Lemma root_part x : In x (flat_map parts ds) -> root c (pkey x) <-> ppar x = None.
  Proof using W E.
    intros Hx. split.
    - intros [i H]. apply entry_in in H. rewrite (E x Hx) in H. destruct (ppar x); [discriminate H|reflexivity].
    - intros H. exists (part_name x). apply entry_in. rewrite (E x Hx), H. reflexivity.
  Qed.
  Lemma inside_part r x : In x (flat_map parts ds) -> inside c r (pkey x) <-> option_map lower (ppar x) = Some r.
  Proof using W E.
    intros Hx. split.
    - intros [i H]. apply entry_in in H. rewrite (E x Hx) in H. congruence.
    - intros H. exists (part_name x). apply entry_in. rewrite (E x Hx), H. reflexivity.
  Qed.
  Lemma below_part r x : In x (flat_map parts ds) -> below c r (pkey x) <-> option_map lower (ppar x) = Some r.
  Proof using W E.
    intros Hx. rewrite <- (inside_part r x Hx). split; [|now constructor]. intros H. inversion H as [y H1|y z H1 H2]; subst; [exact H1|]. exfalso.
    apply (inside_part y x Hx) in H2. destruct (ppar x) as [h|] eqn:Eh; [|discriminate H2]. injection H2 as <-. destruct (part_par ds x h Hx Eh) as (d & Hd & -> & _).
    assert (In (d_name d, None, own_items (d_contents d)) (flat_map parts ds)) as Hp by (apply in_flat_map; exists d; split; [exact Hd|now left]).
    change (lower (d_name d)) with (pkey (d_name d, None, own_items (d_contents d))) in H1. inversion H1 as [y H3|y z H3 H4]; subst; [apply (inside_part _ _ Hp) in H3; discriminate H3|apply (inside_part _ _ Hp) in H4; discriminate H4].
  Qed.
  Lemma filter_all {A} (f : A -> bool) l : (forall x, In x l -> f x = true) -> filter f l = l.
  Proof. induction l as [|a l IH]; intros H; [reflexivity|]. cbn [filter]. rewrite (H a (or_introl eq_refl)), IH; [reflexivity|]. intros x Hx. apply H. now right. Qed.
  Lemma filter_none {A} (f : A -> bool) l : (forall x, In x l -> f x = false) -> filter f l = [].
  Proof. induction l as [|a l IH]; intros H; [reflexivity|]. cbn [filter]. rewrite (H a (or_introl eq_refl)). apply IH. intros x Hx. apply H. now right. Qed.
  Lemma tops_are tops : without (fun x => ~ root c x) (map pkey (flat_map parts ds)) tops -> tops = map (fun d => lower (d_name d)) ds.
  Proof using W E.
    intros (keep & K & ->).
    assert (forall x, In x (flat_map parts ds) -> keep (pkey x) = match ppar x with None => true | Some _ => false end) as K'.
    { intros x Hx. specialize (K (pkey x) (in_map pkey _ _ Hx)). rewrite (root_part x Hx) in K. destruct (ppar x), (keep (pkey x)); try reflexivity; [|exfalso; now apply (proj1 K eq_refl)]. apply K. discriminate. }
    clear -K'. induction ds as [|d l IH]; [reflexivity|]. cbn [flat_map map] in *. rewrite map_app, filter_app, IH by (intros x Hx; apply K'; apply in_app_iff; now right).
    unfold parts at 1. cbn [map filter]. rewrite (K' (d_name d, None, own_items (d_contents d)) (or_introl eq_refl)). cbn [ppar app]. f_equal. rewrite filter_none; [reflexivity|].
    intros k Hk. apply in_map_iff in Hk as (x & <- & Hx). rewrite K' by (apply in_app_iff; left; now right). now rewrite (frame_par _ _ _ Hx).
  Qed.
  Lemma frames_are d fr : In d ds -> without (fun x => ~ below c (lower (d_name d)) x) (map pkey (flat_map parts ds)) fr -> fr = map pkey (frames_in (d_name d) (d_contents d)).
  Proof using W E N.
    intros Hd (keep & K & ->).
    assert (forall x, In x (flat_map parts ds) -> (keep (pkey x) = true <-> option_map lower (ppar x) = Some (lower (d_name d)))) as K'.
    { intros x Hx. specialize (K (pkey x) (in_map pkey _ _ Hx)). rewrite <- (below_part _ x Hx). destruct (keep (pkey x)); [|split; [discriminate|intros H; exfalso; now apply (proj1 K eq_refl)]].
      split; [intros _|reflexivity]. rewrite (below_part _ x Hx) in K |- *. destruct (option_map lower (ppar x)) as [q|] eqn:Eq; [|exfalso; discriminate (proj2 K ltac:(discriminate))].
      destruct (str_eqb_spec q (lower (d_name d))) as [->|Nq]; [reflexivity|]. exfalso. assert (true = false) by (apply K; congruence). discriminate. }
    apply in_split in Hd as (l1 & l2 & El). rewrite El in K', N |- *. rewrite flat_map_app in *. cbn [flat_map] in *. rewrite !map_app, !filter_app.
    assert (forall l, (forall x, In x (flat_map parts l) -> In x (flat_map parts l1 ++ parts d ++ flat_map parts l2)) -> (forall d', In d' l -> lower (d_name d') <> lower (d_name d)) -> filter keep (map pkey (flat_map parts l)) = []) as Z.
    { intros l Hl Nl. apply filter_none. intros k Hk. apply in_map_iff in Hk as (x & <- & Hx). destruct (keep (pkey x)) eqn:Ek; [|reflexivity]. exfalso. apply (K' x (Hl x Hx)) in Ek.
      destruct (ppar x) as [h|] eqn:Eh; [|discriminate Ek]. injection Ek as Ek. destruct (part_par l x h Hx Eh) as (d' & Hd' & -> & _). now apply (Nl d' Hd'). }
    rewrite (Z l1), (Z l2).
    - rewrite app_nil_r. cbn [app]. unfold parts. cbn [map filter]. destruct (keep (pkey (d_name d, None, own_items (d_contents d)))) eqn:Ek.
      { apply K' in Ek; [discriminate Ek|]. apply in_app_iff. right. now left. }
      apply filter_all. intros k Hk. apply in_map_iff in Hk as (x & <- & Hx). apply K'; [|now rewrite (frame_par _ _ _ Hx)]. apply in_app_iff. right. apply in_app_iff. left. now right.
    - intros x Hx. apply in_app_iff. right. apply in_app_iff. now right.
    - intros d' Hd' Heq. rewrite !map_app in N. apply nodup_right in N. cbn [parts map app] in N. apply NoDup_cons_iff in N as [N _]. apply N. apply in_app_iff. right.
      apply in_map_iff. exists (d_name d', None, own_items (d_contents d')). split; [exact Heq|]. apply in_flat_map. exists d'. split; [exact Hd'|now left].
    - intros x Hx. apply in_app_iff. now left.
    - intros d' Hd' Heq. rewrite !map_app in N. cbn [parts map app] in N. apply NoDup_remove_2 in N. apply N. apply in_app_iff. left.
      apply in_map_iff. exists (d_name d', None, own_items (d_contents d')). split; [exact Heq|]. apply in_flat_map. exists d'. split; [exact Hd'|now left].
  Qed.
  Lemma order_is tops frames : without (fun x => ~ root c x) (map pkey (flat_map parts ds)) tops ->
    (forall r, In r tops -> without (fun x => ~ below c r x) (map pkey (flat_map parts ds)) (frames r)) -> concat (map (fun r => r :: frames r) tops) = map pkey (flat_map parts ds).
  Proof using W E N.
    intros Ht Hf. apply tops_are in Ht. subst tops. rewrite map_map.
    assert (forall d, In d ds -> frames (lower (d_name d)) = map pkey (frames_in (d_name d) (d_contents d))) as F.
    { intros d Hd. apply (frames_are d _ Hd). apply Hf. apply in_map_iff. now exists d. }
    clear Hf. clear -F. induction ds as [|d l IH]; [reflexivity|]. cbn [map concat flat_map]. rewrite map_app, <- IH by (intros d' Hd'; apply F; now right). rewrite (F d (or_introl eq_refl)). reflexivity.
  Qed.
End Coll.

Theorem converted g g' s ds o sd sc un maxout comment : parse_file g s = Ret ds -> Forall one_level ds ->
  NoDup (map (fun x => lower (part_name x)) (flat_map parts ds)) -> Forall (part_fits sd (ro_maxn o)) (flat_map parts ds) ->
  s <> [] -> ~ In 26%N s -> short_lines (ro_maxlength o) s -> ro_cbf o = false -> chosen o g s -> (g = G20 -> firstn 10 s = magic) ->
  sd <> StdDic -> g' <> GS2 -> Forall (part_writable g' maxout) (flat_map parts ds) -> comment_text comment ->
  exists c text, read_star o s (new_coll sd sc un) = (c, Ret true) /\ write_out maxout [] comment (c_set_grammar g' c) = Ret text /\
  forall o' sc' un', text <> [] -> ~ In 26%N text -> short_lines (ro_maxlength o') text -> ro_cbf o' = false -> ro_maxn o' = ro_maxn o ->
    (ro_grammar o' = Some g' \/ ro_grammar o' = None /\ (g' = G20 \/ g' = G11 /\ firstn 10 text <> u "#\#CIF_2.0")) ->
    exists c', read_star o' text (new_coll sd sc' un') = (c', Ret true) /\ CWF c' /\ c_gram c' = g'
      /\ Permutation (ckeys c') (map pkey (flat_map parts ds)) /\ c_order c' = map pkey (flat_map parts ds) /\ Forall (says_part c') (flat_map parts ds).
Proof.
  intros HP Ho N HF Hne Hz Hl Hcbf Hch Hm Hsd Hg Hw Hcm.
  destruct (parse_file_toks g s ds HP) as (ts & r & _ & _ & B). destruct (read_names g s ds HP) as [Nn Nh]. rewrite Forall_forall in Nn, Nh.
  pose proof (parts_given g ds ts B) as Hv.
  assert (forall x, In x (flat_map parts ds) -> Forall is_dataname (all_names (match x with (_, _, its) => its end))) as Hn.
  { intros x Hx. apply Forall_forall. intros n Hn. destruct (Nn n (part_names ds x n Hx Hn)) as (w & -> & _). now exists w. }
  destruct (read_by_hand g s ds o sd sc un HP Ho N HF Hne Hz Hl Hcbf Hch Hm) as (c & Hr & W & V & Ec & Es & _ & Ek & Eo & Hh).
  rewrite Forall_forall in Hh, HF, Hw. set (c1 := c_set_grammar g' c).
  assert (CWF c1) as W1 by (apply (remap_CWF c); try reflexivity; assumption).
  assert (forall x, In x (flat_map parts ds) -> entry_of c1 (pkey x) = Some (PC (part_name x) (option_map lower (ppar x)))) as E1.
  { intros [[n p] its] Hx. exact (proj1 (Hh _ Hx)). }
  assert (forall k, In k (ckeys c) -> exists x, In x (flat_map parts ds) /\ k = pkey x) as Kx.
  { intros k Hk. rewrite Ek in Hk. apply in_map_iff in Hk as (x & <- & Hx). now exists x. }
  assert (file_ready maxout (ro_maxn o) c1) as R.
  { split; [exact W1|]. split; [exact Hg|]. split; [change (c_std c <> StdDic); congruence|]. intros k e b Hin Hb.
    destruct (Kx k) as (x & Hx & ->). { apply (in_table c W). apply in_map_iff. exists (k, e). now split. }
    apply (entry_in c1 W1) in Hin. rewrite (E1 x Hx) in Hin. injection Hin as <-. cbn [pc_id]. destruct x as [[n p] its]. cbn [part_name ppar pkey] in *.
    destruct (Hh _ Hx) as (_ & b0 & Hb0 & Wb & Hi & Hk & Ht & _ & Hlp). destruct (HF _ Hx) as (F1 & F2 & F3 & F4). destruct (Hw _ Hx) as [Rh Rt].
    assert (b = b0) as ->.
    { change (c_get (lower n) c = Ret b) in Hb. apply (c_get_spec _ _ _ W) in Hb, Hb0. rewrite lower_idem in Hb. apply (dget_In_NoDup _ str_eqb_spec) in Hb, Hb0; try exact (cw_keys _ W). congruence. }
    split; [reflexivity|]. split; [exact Rh|]. split; [exact F1|].
    replace (name_limit (c_std c1) (ro_maxn o) (PC n (option_map lower p))) with (names_limit sd (ro_maxn o) p) by (change (c_std c1) with (c_std c); rewrite Es; destruct p; reflexivity).
    apply (part_good g' maxout _ its); try assumption. exact (Hn _ Hx). }
  destruct (round_trip maxout (ro_maxn o) c1 comment R Hcm) as (text & Hwr & Hrd). exists c, text. split; [exact Hr|]. split; [exact Hwr|].
  intros o' sc' un' T1 T2 T3 T4 T5 T6. destruct (Hrd o' sc' un' T1 T2 T3 T4 T5 T6) as (c' & Hr' & W' & _ & Eg & _ & _ & SF).
  change (c_std c1) with (c_std c) in Hr'. rewrite Es in Hr'. exists c'. split; [exact Hr'|]. split; [exact W'|]. split; [exact Eg|].
  destruct SF as (S1 & S2 & S3 & (tops & frames & S4 & S5 & S6) & S7). change (ckeys c1) with (ckeys c) in S1. rewrite Ek in S1. split; [exact S1|].
  change (c_order c1) with (c_order c) in S4, S5. rewrite Eo, Ek in S4, S5. split; [rewrite S6; exact (order_is c1 ds W1 N E1 tops frames S4 S5)|].
  apply Forall_forall. intros x Hx. pose proof (root_part c1 ds W1 E1) as Rp. pose proof (below_part c1 ds W1 E1) as Bp.
  assert (entry_of c' (pkey x) = Some (PC (part_name x) (option_map lower (ppar x)))) as E2.
  { destruct (ppar x) as [h|] eqn:Eh.
    - destruct (part_par ds x h Hx Eh) as (d & Hd & -> & _).
      assert (In (d_name d, None, own_items (d_contents d)) (flat_map parts ds)) as Hp by (apply in_flat_map; exists d; split; [exact Hd|now left]).
      destruct (S3 (lower (d_name d)) (pkey x)) as (i & q & H1 & H2).
      + exact (proj2 (Rp _ Hp) eq_refl).
      + apply (Bp _ _ Hx). now rewrite Eh.
      + rewrite (E1 x Hx) in H1. injection H1 as <- _. exact H2.
    - rewrite S2 by (apply (Rp _ Hx); exact Eh). rewrite (E1 x Hx), Eh. reflexivity. }
  specialize (Hv x Hx). destruct x as [[n p] its]. cbn [says_part part_name ppar pkey] in *. split; [exact E2|].
  destruct (Hh _ Hx) as (_ & b & Hb & Wb & Hi & Hk & Ht & Hord & Hlp). destruct (HF _ Hx) as (F1 & F2 & F3 & F4).
  destruct (S7 n b Hb) as (b' & Hb' & Wb' & SR & SP). exists b'. split; [exact Hb'|]. split; [exact Wb'|]. split; [|split].
  - rewrite Forall_forall in Hi, Hv |- *. intros it Hit. apply (again_holds b); [exact SR|now apply Hi|now apply Hv].
  - intros k t. destruct (SR k) as (_ & SR2 & _). rewrite SR2, Ht. now apply true_names.
  - apply (again_places b b' its (b_order b)); [|exact SP]. rewrite Hord. apply places_at. intros j cols Hj. now rewrite Hlp.
Qed.

(** ** Files of the older grammars *)
Lemma older_char g g' c : g = G10 \/ g = G11 -> name_char g c = true -> name_char g' c = true.
Proof. intros [->| ->] H; cbn [name_char] in H; destruct g'; cbn [name_char]; try exact H; unfold name_char2; now rewrite H. Qed.
Lemma older_chars g g' l : g = G10 \/ g = G11 -> Forall (fun c => name_char g c = true) l -> Forall (fun c => name_char g' c = true) l.
Proof. intros Hg H. eapply Forall_impl; [|exact H]. intros c Hc. now apply (older_char g). Qed.
Lemma plain_ends vs : vs <> [] -> Forall plain_value vs -> ends_full (map canon vs).
Proof.
  intros H0 H vs0 E. destruct (exists_last H0) as (l & x & ->). rewrite map_app in E. cbn [map] in E. apply app_inj_tail in E as [_ E].
  apply Forall_app in H as [_ H]. inversion H as [|y l' (t & -> & _) H']; subst. discriminate E.
Qed.
Theorem older_writable g g' s ds sd maxn maxout : g = G10 \/ g = G11 -> parse_file g s = Ret ds -> Forall (part_fits sd maxn) (flat_map parts ds) ->
  Forall plain_part (flat_map parts ds) -> Forall (part_writable g' maxout) (flat_map parts ds).
Proof.
  intros Hg HP HF Hp. destruct (read_names g s ds HP) as [Nn Nh]. rewrite Forall_forall in *. intros x Hx.
  destruct (parse_file_toks g s ds HP) as (ts & r & _ & _ & B). pose proof (parts_given g ds ts B x Hx) as Hv.
  specialize (Hp x Hx). specialize (HF x Hx). pose proof (part_heading ds x Hx) as H1. pose proof (part_names ds x) as H2. destruct x as [[n p] its].
  cbn [plain_part part_fits part_writable part_name] in *. destruct HF as (_ & HF & _). split.
  - destruct (Nh _ H1) as [H3 H4]. split; [exact H3|now apply (older_chars g)].
  - rewrite Forall_forall in *. intros it Hit. specialize (Hp it Hit). specialize (HF it Hit). specialize (Hv it Hit).
    assert (forall m, In m (ReadSpec.item_names it) -> readable_name g' m) as Hm.
    { intros m Hm. destruct (Nn m) as (w & -> & H3 & H4); [apply H2; [exact Hx|apply in_flat_map; now exists it]|]. exists w. split; [reflexivity|]. split; [exact H3|now apply (older_chars g)]. }
    destruct it as [m v|ns vs]; cbn [plain_item item_fits item_given ReadSpec.item_names] in *.
    + destruct Hp as (t & -> & Ht). split; [exact I|]. split; [apply Hm; now left|]. intros req [<-|[]]. constructor. now apply ordinary_clear.
    + destruct HF as (F1 & _). destruct Hv as [V1 _]. split; [left; split|].
      * rewrite Forall_forall in *. intros v Hv. destruct (Hp v Hv) as (t & -> & _). reflexivity.
      * intros t _. cbn. discriminate.
      * split; [exact F1|]. split; [exact V1|]. split; [apply Forall_forall; exact Hm|]. split; [|now apply plain_ends].
        rewrite Forall_forall in *. intros v Hv req [<-|[]]. destruct (Hp v Hv) as (t & -> & Ht). constructor. now apply ordinary_clear.
Qed.
