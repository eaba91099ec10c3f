(** Writing in a given order: the blocks that are listed can be read back. *)
From Coq Require Import String Ascii List NArith ZArith Bool Lia Permutation.
From Verif Require Import PyBase PyFacts StarBlockModel StarBlockSpec ScanModel OrderModel WriteModel CollectionModel FileModel GivenModel
  CollectionSpec ParseSpec FileSpec GivenSpec CollectionProofs CollectionProofs2 CollectionProofs3 CollectionProofs4 FileProofs3 GivenProofs.
Import ListNotations.
Open Scope nat_scope.

Section Given.
Context (maxout : Z) (hs : list hint).
Variable c : coll.
Hypothesis W : CWF c.
Variable order : list str.
Hypothesis Ho : forall x, In x order -> In x (ckeys c).

Lemma names_nodup : NoDup (map fst (c_child c)). Proof using W. exact (table_NoDup c W). Qed.
(** 865-891 for a list without repetitions. *)
Lemma given_selected : NoDup order -> c_gram c <> GS2 ->
  exists tops frames left, without (fun x => ~ root c x) order tops /\ (forall r, In r tops -> without (fun x => ~ below c r x) order (frames r)) /\
    (forall x, In x left <-> In x (ckeys c) /\ ~ placed c order x) /\
    forall after comment, write_given maxout hs (Some order) after comment c =
      obind (write_secs maxout hs (concat (map (fun r => section (c_std c) r (frames r)) tops)) c) (fun t => Ret (file_head (c_gram c) comment ++ t, left)).
Proof using W Ho.
  intros N G. destruct (given_plan c W order Ho) as (tops & frames & Et & Ew & Ht & Hf & Hp & Hn & _). specialize (Hn N).
  set (ks := concat (map (fun r => r :: frames r) tops)) in *.
  exists tops, frames, (filter (fun x => negb (mem str_eqb x ks)) (map fst (c_child c))). split; [assumption|]. split; [assumption|]. split.
  { intros x. rewrite filter_In, negb_true_iff, (mem_false str_eqb str_eqb_spec), Hp, (in_table c W). reflexivity. }
  intros after comment. unfold write_given. rewrite Et. cbn [obind].
  replace (match c_gram c with GS2 => _ | _ => obind (write_tops tops (set_corder order c)) (fun l => write_listed maxout hs l c (map fst (c_child c))) end)
      with (obind (write_tops tops (set_corder order c)) (fun l => write_listed maxout hs l c (map fst (c_child c)))) by (destruct (c_gram c); congruence).
  rewrite Ew. cbn [obind]. rewrite (listed_all maxout hs _ _ _ (filter (fun x => negb (mem str_eqb x ks)) (map fst (c_child c)))).
  - now destruct (write_secs maxout hs _ c).
  - rewrite plan_sec_keys. apply take_all; [exact names_nodup|exact Hn|]. intros x Hx. apply Hp in Hx as [Hx _]. apply (in_table c W). auto.
Qed.
Lemma given_twice x after comment : c_gram c <> GS2 -> listed_twice x order -> placed c order x ->
  (exists e, write_given maxout hs (Some order) after comment c = Raise e) /\
  (c_std c <> StdDic -> (forall k b, c_get k c = Ret b -> exists t, print_block (c_gram c) maxout hs b = Ret t) ->
   write_given maxout hs (Some order) after comment c = Raise ValueErr).
Proof using W Ho.
  intros G T P. destruct (given_plan c W order Ho) as (tops & frames & Et & Ew & Ht & Hf & Hp & _ & Hn). specialize (Hn x T P).
  assert (E : write_given maxout hs (Some order) after comment c =
    obind (write_listed maxout hs (concat (map (fun r => section (c_std c) r (frames r)) tops)) c (map fst (c_child c))) (fun t => Ret (file_head (c_gram c) comment ++ fst t, snd t))).
  { unfold write_given. rewrite Et. cbn [obind]. rewrite Ew. cbn [obind]. destruct (c_gram c); congruence. }
  assert (take_names (sec_keys (concat (map (fun r => section (c_std c) r (frames r)) tops))) (map fst (c_child c)) = Raise ValueErr) as F by (rewrite plan_sec_keys; apply take_twice; [exact names_nodup|exact Hn]).
  destruct (listed_fails maxout hs _ c _ _ F) as [(e & F1) F2]. split.
  - exists e. rewrite E, F1. reflexivity.
  - intros D B.
    assert (forall k, In k (ckeys c) -> exists b, c_get k c = Ret b) as Get.
    { intros k Hk. pose proof Hk as Hk'. unfold ckeys in Hk. apply in_map_iff in Hk as ([k' b] & <- & Hk). exists b. apply (c_get_spec c _ _ W). cbn [fst] in *. now rewrite (cw_low _ W k' Hk'). }
    assert (forall k, In k (ckeys c) -> exists n t, id_of k c = Ret n /\ body_text maxout hs k c = Ret t) as All.
    { intros k Hk. destruct (Get k Hk) as [b Eb]. destruct (B k b Eb) as [t Et']. unfold id_of, body_text. rewrite Eb. cbn [obind].
      apply (in_table c W) in Hk. destruct (dget str_eqb k (c_child c)) as [p|] eqn:Ep; [eauto|]. exfalso. now apply (dget_None str_eqb str_eqb_spec) in Ep. }
    assert (exists t, write_secs maxout hs (concat (map (fun r => section (c_std c) r (frames r)) tops)) c = Ret t) as [t Ew'].
    { assert (forall s, In s (concat (map (fun r => section (c_std c) r (frames r)) tops)) -> exists k, In k (ckeys c) /\ (s = WHead k \/ s = WFrame k \/ s = WBody k)) as Hs.
      { intros s Hs. apply in_concat in Hs as (l & Hl & Hs). apply in_map_iff in Hl as (r & <- & Hr).
        assert (forall k, In k (r :: frames r) -> In k (ckeys c)) as Hk. { intros k Hk. assert (placed c order k) as [Hk' _]; [|auto]. apply Hp. apply in_concat. exists (r :: frames r). split; [now apply (in_map (fun r => r :: frames r))|assumption]. }
        unfold section in Hs. destruct Hs as [<-|Hs]; [exists r; split; [apply Hk; now left|auto]|].
        destruct (c_std c); [| |congruence]; (apply in_app_iff in Hs as [Hs|[<-|[ ]]]; [apply in_map_iff in Hs as (k & <- & Hs); exists k; split; [apply Hk; now right|auto]|exists r; split; [apply Hk; now left|auto]]). }
      clear -Hs All. induction (concat _) as [|s l IH]; [eexists; reflexivity|]. destruct IH as [t Et]; [intros s' Hs'; apply Hs; now right|].
      destruct (Hs s (or_introl eq_refl)) as (k & Hk & [-> | [-> | ->]]); destruct (All k Hk) as (n & t' & E1 & E2); cbn [write_secs]; rewrite ?E1; cbn [obind]; rewrite ?E2; cbn [obind]; rewrite Et; eexists; reflexivity. }
    rewrite E, (F2 _ Ew'). reflexivity.
Qed.

(** The part of the collection that is listed. *)
Definition lst (x : str) : bool := mem str_eqb x order.
Definition part_of : coll :=
  Coll (filter (fun kb => lst (fst kb)) (c_dict c)) (filter lst (c_lower c)) (filter (fun kp => lst (fst kp)) (c_child c)) (filter lst (c_vis c)) order (c_std c) (c_scope c) (c_uni c) (c_gram c).
Lemma lst_In x : lst x = true <-> In x order. Proof. exact (mem_In str_eqb str_eqb_spec x order). Qed.
Lemma filter_fst {B} (l : list (str * B)) : map fst (filter (fun kb => lst (fst kb)) l) = filter lst (map fst l).
Proof. induction l as [|[k b] l IH]; [reflexivity|]. cbn [map filter fst]. destruct (lst k); cbn [map fst]; now rewrite IH. Qed.
Lemma filter_perm (l l' : list str) : Permutation l l' -> Permutation (filter lst l) (filter lst l').
Proof. induction 1; cbn [filter]; try (destruct (lst x); [now constructor|assumption]); [constructor| |eapply perm_trans; eassumption]. destruct (lst x), (lst y); try reflexivity. apply perm_swap. Qed.
Hypothesis N : NoDup order.
Hypothesis Cl : closed_list order c.
Lemma part_inside p x : inside part_of p x <-> inside c p x /\ In x order.
Proof.
  unfold inside. cbn [part_of c_child]. split.
  - intros (i & H). apply filter_In in H as [H1 H2]. apply lst_In in H2. split; [now exists i|exact H2].
  - intros ((i & H1) & H2). exists i. apply filter_In. split; [exact H1|]. now apply lst_In.
Qed.
Lemma part_root x : root part_of x <-> root c x /\ In x order.
Proof.
  unfold root. cbn [part_of c_child]. split.
  - intros (i & H). apply filter_In in H as [H1 H2]. apply lst_In in H2. split; [now exists i|exact H2].
  - intros ((i & H1) & H2). exists i. apply filter_In. split; [exact H1|]. now apply lst_In.
Qed.
Lemma part_below p x : below part_of p x <-> below c p x /\ In x order.
Proof using Cl.
  split.
  - intros H. induction H as [x H|x y H IH H1].
    + apply part_inside in H as [H H']. split; [now apply below_one|assumption].
    + apply part_inside in H1 as [H1 H']. split; [|assumption]. eapply below_more; [apply IH|exact H1].
  - intros [H Hx]. induction H as [x H|x y H IH H1].
    + apply below_one. now apply part_inside.
    + eapply below_more; [apply IH, (Cl x y Hx H1)|]. now apply part_inside.
Qed.
Lemma part_keys : Permutation order (ckeys part_of).
Proof using W Ho N.
  unfold ckeys. cbn [part_of c_dict]. rewrite filter_fst. apply NoDup_Permutation; [exact N|apply NoDup_filter, (cw_keys _ W)|].
  intros x. rewrite filter_In, lst_In. split; [intros H; split; [now apply Ho|exact H]|tauto].
Qed.
Lemma part_CWF : CWF part_of.
Proof using W Ho N Cl.
  assert (ckeys part_of = filter lst (ckeys c)) as Ek by (unfold ckeys; cbn [part_of c_dict]; apply filter_fst).
  constructor.
  - rewrite Ek. apply NoDup_filter, (cw_keys _ W).
  - intros k Hk. rewrite Ek in Hk. apply filter_In in Hk as [Hk _]. now apply (cw_low _ W).
  - rewrite Ek. cbn [part_of c_lower]. apply filter_perm, (cw_set _ W).
  - rewrite Ek. cbn [part_of c_child]. rewrite filter_fst. apply filter_perm, (cw_table _ W).
  - cbn [part_of c_order]. exact part_keys.
  - intros p x H. apply part_inside in H as [H H']. rewrite Ek. apply filter_In. split; [exact (cw_parents _ W p x H)|]. apply lst_In. exact (Cl p x H' H).
  - intros x H. apply part_below in H as [H _]. exact (cw_acyclic _ W x H).
Qed.
Lemma part_get k b : In k order -> (c_get k part_of = Ret b <-> c_get k c = Ret b).
Proof using W Ho N Cl.
  intros Hk. rewrite (c_get_spec _ _ _ W), (c_get_spec _ _ _ part_CWF). cbn [part_of c_dict]. rewrite filter_In. cbn [fst]. rewrite (cw_low _ W k (Ho k Hk)), lst_In. tauto.
Qed.
Lemma part_entry k : In k order -> dget str_eqb k (c_child part_of) = dget str_eqb k (c_child c).
Proof.
  intros Hk. cbn [part_of c_child]. induction (c_child c) as [|[x p] l IH]; [reflexivity|]. cbn [filter fst]. destruct (lst x) eqn:E; cbn [dget fst].
  - destruct (str_eqb k x); [reflexivity|exact IH].
  - destruct (str_eqb_spec k x) as [El|]; [|exact IH]. apply lst_In in Hk. rewrite El in Hk. congruence.
Qed.
Lemma part_ready maxn : file_ready maxout maxn c -> file_ready maxout maxn part_of.
Proof using W Ho N Cl.
  intros (_ & G & D & H). split; [exact part_CWF|]. split; [exact G|]. split; [exact D|]. intros k e b Hk Hb. cbn [part_of c_child] in Hk. apply filter_In in Hk as [Hk Hl]. apply lst_In in Hl. cbn [fst] in Hl.
  apply (H k e b Hk). now apply part_get.
Qed.
Lemma part_secs l : c_std c <> StdDic -> (forall s, In s l -> exists k, In k order /\ (s = WHead k \/ s = WFrame k \/ s = WBody k)) -> write_secs maxout hs l part_of = write_secs maxout hs l c.
Proof using W Ho N Cl.
  intros D. assert (forall k, In k order -> c_get k part_of = c_get k c) as Eg.
  { intros k Hk. destruct (c_get k c) as [b|e] eqn:E; [now apply part_get|]. exfalso. pose proof (Ho k Hk) as Hk'. unfold ckeys in Hk'. apply in_map_iff in Hk' as ([k' b] & Ek & Hk'). cbn [fst] in Ek. subst k'.
    assert (c_get k c = Ret b) as X by (apply (c_get_spec c _ _ W); now rewrite (cw_low _ W k (Ho k Hk))). congruence. }
  induction l as [|s l IH]; intros H; [reflexivity|]. assert (write_secs maxout hs l part_of = write_secs maxout hs l c) as El by (apply IH; intros s' Hs'; apply H; now right). clear IH.
  destruct (H s (or_introl eq_refl)) as (k & Hk & C).
  assert (id_of k part_of = id_of k c) as Ei by (unfold id_of; now rewrite part_entry).
  assert (body_text maxout hs k part_of = body_text maxout hs k c) as Eb by (unfold body_text; now rewrite Eg).
  destruct C as [-> | [-> | ->]]; cbn [write_secs]; rewrite ?Ei, ?Eb, El; reflexivity.
Qed.
Lemma without_ext (P Q : str -> Prop) l l' : (forall x, In x l -> (P x <-> Q x)) -> without P l l' -> without Q l l'.
Proof. intros H (keep & K & ->). exists keep. split; [|reflexivity]. intros x Hx. rewrite (K x Hx). now apply H. Qed.
Lemma without_det (P : str -> Prop) l a b : without P l a -> without P l b -> a = b.
Proof.
  intros (k & K & ->) (k' & K' & ->). apply filter_ext_in. intros x Hx. specialize (K x Hx). specialize (K' x Hx). destruct (k x), (k' x); try reflexivity.
  - assert (true = false) as X by (apply K, K'; reflexivity). discriminate X.
  - assert (true = false) as X by (apply K', K; reflexivity). discriminate X.
Qed.
Lemma closed_placed x : In x order -> placed c order x.
Proof using W Ho Cl.
  intros Hx. split; [exact Hx|]. destruct (has_root c W x (Ho x Hx)) as [R|(r & R & B)]; [now left|]. right. exists r. split; [|now split].
  clear R. induction B as [x H|x y H IH H1]; [exact (Cl r x Hx H)|]. apply IH. exact (Cl x y Hx H1).
Qed.
End Given.

Lemma given_reads maxout maxn c order after comment : file_ready maxout maxn c -> (forall x, In x order -> In x (ckeys c)) -> NoDup order -> closed_list order c -> comment_text comment ->
  exists text left, write_given maxout [] (Some order) after comment c = Ret (text, left) /\ (forall x, In x left <-> In x (ckeys c) /\ ~ In x order) /\
  forall o sc un, text <> [] -> ~ In 26%N text -> short_lines (ro_maxlength o) text -> ro_cbf o = false ->
    ro_maxn o = maxn -> chosen o (c_gram c) text ->
    exists c', read_star o text (new_coll (c_std c) sc un) = (c', Ret true) /\
      CWF c' /\ visible_ok c' /\ c_gram c' = c_gram c /\ c_std c' = c_std c /\ c_scope c' = sc /\ same_listed order c c'.
Proof.
  intros R Ho N Cl Hc. pose proof R as (W & G & D & _). set (p := part_of c order).
  pose proof (part_CWF c W order Ho N Cl : CWF p) as Wp. pose proof (part_ready maxout c W order Ho N Cl maxn R : file_ready maxout maxn p) as Rp.
  destruct (given_selected maxout [] c W order Ho N G) as (tops & frames & left & Ht & Hf & Hl & Ew).
  destruct (round_trip maxout maxn p comment Rp Hc) as (text & Etext & Hread).
  destruct (top_blocks_ok p Wp order) as (keep & Ekt & Hkt); [intros x Hx; apply (in_corder p Wp); exact Hx|].
  assert (filter keep order = tops) as Etops.
  { eapply without_det; [|exact Ht]. apply not_kept. intros x Hx. rewrite (Hkt x Hx). unfold p. rewrite (part_root c order). tauto. }
  destruct (given_tops p Wp order tops) as (frames' & Ew' & Hf').
  assert (forall r, In r tops -> frames' r = frames r) as Efr.
  { intros r Hr. assert (In r order) as Ir by (destruct Ht as (? & _ & ->); now apply filter_In in Hr as [Hr _]).
    destruct (Hf' r) as (kp & E & Hkp); [apply (in_corder p Wp); exact Ir|intros x Hx; apply (in_corder p Wp); exact Hx|]. eapply without_det; [|apply Hf; exact Hr]. rewrite E. apply not_kept. intros x Hx. rewrite (Hkp x Hx). unfold p. rewrite (part_below c order Cl). tauto. }
  assert (write_plan p = Ret (concat (map (fun r => section (c_std c) r (frames r)) tops))) as Ep.
  { unfold write_plan. change (c_order p) with order. rewrite Ekt. cbn [obind]. rewrite Etops. change (set_corder order p) with p in Ew'. rewrite Ew'. f_equal. f_equal. apply map_ext_in. intros r Hr. change (c_std p) with (c_std c). now rewrite Efr. }
  assert (write_secs maxout [] (concat (map (fun r => section (c_std c) r (frames r)) tops)) p = write_secs maxout [] (concat (map (fun r => section (c_std c) r (frames r)) tops)) c) as Es.
  { apply (part_secs maxout [] c W order Ho N Cl); [exact D|]. intros s Hs. apply in_concat in Hs as (l & Hx & Hs). apply in_map_iff in Hx as (r & <- & Hr).
    assert (In r order) as Ir by (destruct Ht as (? & _ & ->); now apply filter_In in Hr as [Hr _]).
    assert (forall k, In k (frames r) -> In k order) as Hk. { intros k Hk. destruct (Hf r Hr) as (? & _ & E). rewrite E in Hk. now apply filter_In in Hk as [Hk _]. }
    unfold section in Hs. destruct Hs as [<-|Hs]; [exists r; auto|].
    destruct (c_std c); [| |congruence]; (apply in_app_iff in Hs as [Hs|[<-|[ ]]]; [apply in_map_iff in Hs as (k & <- & Hs); exists k; auto|exists r; auto]). }
  exists text, left. split.
  { rewrite Ew, <- Es. unfold write_out in Etext. change (c_gram p) with (c_gram c) in Etext.
    assert (obind (write_plan p) (fun l => write_secs maxout [] l p) = match c_gram c with GS2 => obind (top_blocks (c_order p) (c_child p)) (fun tops => write_nested maxout [] tops p) | _ => obind (write_plan p) (fun l => write_secs maxout [] l p) end) as Eq by (destruct (c_gram c); congruence).
    rewrite <- Eq in Etext. clear Eq. rewrite Ep in Etext. cbn [obind] in Etext. destruct (write_secs maxout [] _ p) as [t|]; [|discriminate Etext]. cbn [obind] in *. now injection Etext as <-. }
  split.
  { intros x. rewrite Hl. split; intros [H1 H2]; (split; [exact H1|]); intros X; apply H2; [now apply closed_placed|exact (proj1 X)]. }
  intros o sc un H1 H2 H3 H4 H5 H6. destruct (Hread o sc un H1 H2 H3 H4 H5 H6) as (c' & E & Wc & V & Hg & Hs & Hsc & (S1 & S2 & S3 & S4 & S5)). exists c'.
  split; [exact E|]. split; [exact Wc|]. split; [exact V|]. split; [exact Hg|]. split; [exact Hs|]. split; [exact Hsc|].
  assert (forall k, In k order -> entry_of p k = entry_of c k) as Ee by (intros k Hk; apply (part_entry c order k Hk)).
  split; [|split; [|split; [|split]]].
  - rewrite S1. symmetry. exact (part_keys c W order Ho N).
  - intros k Hk Hr. rewrite <- (Ee k Hk). apply S2. now apply part_root.
  - intros r x Hx Hr B. rewrite <- (Ee x Hx). apply S3; [|now apply (part_below c order Cl)]. apply part_root. split; [exact Hr|].
    destruct (closed_placed c W order Ho Cl x Hx) as [_ [R'|(r' & I' & R' & B')]]; [exfalso; exact (root_below c W _ _ R' B)|]. now rewrite (root_unique c W _ _ _ Hr R' B B').
  - destruct S4 as (tops' & fr & T1 & T2 & T3). exists tops', fr. change (c_order p) with order in *. split; [|split; [|exact T3]].
    + eapply without_ext; [|exact T1]. intros x Hx. cbn beta. unfold p. rewrite (part_root c order). tauto.
    + intros r Hr. eapply without_ext; [|exact (T2 r Hr)]. intros x Hx. cbn beta. unfold p. rewrite (part_below c order Cl). tauto.
  - intros k b Hk Hb. apply S5. now apply (part_get c W order Ho N Cl).
Qed.
