(** Proofs for C133. *)
From Coq Require Import String Ascii List NArith ZArith PeanoNat Bool Lia.
From Verif Require Import PyBase PyFacts StarBlockModel StarBlockSpec LoopModel LoopSpec LoopProofs LoopProofs2 ValidateModel TreeModel KeyModel SemanticModel SemanticSpec AttrModel AttrSpec.
Import ListNotations.
Open Scope string_scope.
Open Scope list_scope.

Lemma read_present : forall n repr derive p name b v, att p name v -> read_attr n repr derive p name b = Ret (v, b).
Proof. intros n repr derive p name b v H. unfold att in H. destruct n; cbn [read_attr]; rewrite H; reflexivity. Qed.

Lemma key_dict_known : forall n repr derive p b ks kvs acc, Forall2 (fun k v => att p k v) ks kvs -> NoDup ks ->
  (forall k, In k ks -> dget str_eqb k acc = None) ->
  key_dict (read_attr n repr derive p) ks b acc = Ret (acc ++ combine ks (map (fun v => (v, true)) kvs), b).
Proof.
  intros n repr derive p b ks kvs acc H. revert acc. induction H as [|k v ks kvs A H IH]; intros acc ND F.
  - cbn [key_dict combine map]. now rewrite app_nil_r.
  - cbn [key_dict]. rewrite (read_present _ _ _ _ _ _ _ A). cbn [obind fst snd]. inversion ND as [|x y N1 N2]; subst.
    assert (E : dset str_eqb k (v, true) acc = acc ++ [(k, (v, true))]).
    { specialize (F k (or_introl eq_refl)). clear - F. induction acc as [|[a w] acc IH]; [reflexivity|].
      cbn [dget dset app] in *. destruct (str_eqb k a); [discriminate F|]. now rewrite IH. }
    rewrite E, IH; [|exact N2|].
    + cbn [map combine]. now rewrite <- app_assoc.
    + intros k' I. assert (D : k' <> k) by (intros ->; contradiction).
      rewrite <- E. rewrite (dget_dset_neq str_eqb str_eqb_spec); [|congruence]. apply F. now right.
Qed.

Lemma read_step : forall n repr derive p name b b1 kvs, dget str_eqb (lower name) (s_atts p) = None -> derive name b = Ret b1 ->
  NoDup (s_key p) -> Forall2 (fun k v => att p k v) (s_key p) kvs ->
  read_attr (S n) repr derive p name b =
  obind (get_compound_packet repr (combine (s_key p) (map (fun v => (v, true)) kvs)) b1) (fun full => obind (p_attr name full) (fun v => Ret (v, b1))).
Proof.
  intros n repr derive p name b b1 kvs Hno Hd Hnd Hk. cbn [read_attr]. rewrite Hno, Hd. cbn [obind].
  rewrite (key_dict_known n repr derive p b1 (s_key p) kvs [] Hk Hnd) by (intros; reflexivity). cbn [obind fst snd app]. reflexivity.
Qed.
Lemma kd_in : forall p ks kvs k kv, Forall2 (fun k v => att p k v) ks kvs ->
  In (k, kv) (combine ks (map (fun v : value => (v, true)) kvs)) <-> In k ks /\ exists v, att p k v /\ kv = (v, true).
Proof.
  intros p ks kvs k kv H. induction H as [|k0 v0 ks kvs A H IH]; cbn [map combine In].
  - tauto.
  - rewrite IH. split.
    + intros [E | (I & v & B & E)].
      * injection E as <- <-. split; [now left|]. exists v0. now split.
      * split; [now right|]. exists v. now split.
    + intros ([-> | I] & v & B & ->).
      * left. unfold att in *. rewrite A in B. injection B as ->. reflexivity.
      * right. split; [exact I|]. exists v. now split.
Qed.
Lemma read_derived : forall n repr derive p name b b1 names rows kvs,
  dget str_eqb (lower name) (s_atts p) = None -> derive name b = Ret b1 -> WF b1 -> is_table b1 names rows ->
  s_key p <> [] -> NoDup (s_key p) -> Forall2 (fun k v => att p k v) (s_key p) kvs ->
  (forall k, In k (s_key p) -> In (lower k) names) ->
  (forall i v, only (row_of_packet repr p b1) i -> cell b1 (lower name) i v -> In (lower name) names ->
     read_attr (S n) repr derive p name b = Ret (v, b1)) /\
  ((~ exists i, only (row_of_packet repr p b1) i) -> read_attr (S n) repr derive p name b = Raise ValueErr) /\
  (forall i, only (row_of_packet repr p b1) i -> ~ In (lower name) names -> read_attr (S n) repr derive p name b = Raise AttributeErr).
Proof.
  intros n repr derive p name b b1 names rows kvs Hno Hd Hwf Ht Hne Hnd Hk Hcols.
  set (kd := combine (s_key p) (map (fun v => (v, true)) kvs)).
  assert (E : forall r, read_attr (S n) repr derive p name b = r <->
    obind (get_compound_packet repr kd b1) (fun full => obind (p_attr name full) (fun v => Ret (v, b1))) = r).
  { intros r. rewrite (read_step n repr derive p name b b1 kvs Hno Hd Hnd Hk). fold kd. tauto. }
  assert (KN : kd <> []).
  { unfold kd. destruct (s_key p) as [|k ks]; [congruence|]. inversion Hk as [|x v xs vs A B]; subst. discriminate. }
  assert (KC : forall k kv, In (k, kv) kd -> In (lower k) names).
  { intros k kv I. apply (kd_in p _ _ _ _ Hk) in I. apply Hcols. exact (proj1 I). }
  destruct (compound_spec repr b1 kd names rows Hwf KN Ht KC) as [H1 H2]. cbv zeta in H1, H2.
  set (Q := fun i => forall k kv, In (k, kv) kd -> row_matches b1 k (key_holds repr kv) i) in *.
  assert (HQ : forall i, Q i <-> row_of_packet repr p b1 i).
  { intros i. split.
    - intros H k v I A. destruct (H k (v, true)) as (w & C & P); [apply (kd_in p _ _ _ _ Hk); split; [exact I|]; exists v; now split|].
      exists w. split; [|exact P]. apply (cell_lower b1 names rows k i w Ht (Hcols k I)). exact C.
    - intros H k kv I. apply (kd_in p _ _ _ _ Hk) in I. destruct I as (I & v & A & ->). destruct (H k v I A) as (w & C & P).
      exists w. split; [|exact P]. apply (cell_lower b1 names rows k i w Ht (Hcols k I)). exact C. }
  assert (HO : forall i, only Q i <-> only (row_of_packet repr p b1) i).
  { intros i. unfold only. split; intros [A B]; (split; [now apply HQ|]); intros j J; apply B; now apply HQ. }
  assert (FULL : forall i, only (row_of_packet repr p b1) i -> exists q, is_row b1 names i q /\ get_compound_packet repr kd b1 = Ret q).
  { intros i Hi. destruct (get_compound_packet repr kd b1) as [q|e] eqn:G.
    - destruct (proj1 (H1 q) eq_refl) as (j & J1 & J2). apply HO in J1. destruct Hi as [Hi1 Hi2]. destruct J1 as [J1 _].
      rewrite (Hi2 j J1) in J2. exists q. now split.
    - exfalso.
      destruct (s_key p) as [|k ks] eqn:Ek; [congruence|]. inversion Hk as [|x v xs vs A B]; subst.
      destruct Hi as [Hi1 Hi2]. destruct (Hi1 k v) as (w & C & _); [rewrite Ek; now left|exact A|].
      assert (Ik : In (lower k) names) by (apply Hcols; now left).
      assert (Ik' : In (lower (lower k)) names) by (now rewrite lower_idem).
      assert (Bd := cell_bound b1 names rows (lower k) i w Ht Ik C).
      destruct (packets_spec b1 (lower k) names rows Hwf) as (ps & _ & Hlen & Hrow); [destruct Ht as [_ Ht]; now apply Ht|exact Ht|].
      rewrite <- Hlen in Bd. apply nth_error_Some in Bd. destruct (nth_error ps i) as [q|] eqn:Eq; [|contradiction].
      assert (X : Raise e = Ret q); [|discriminate X]. apply H1. exists i. split; [apply HO; now split|]. now apply Hrow. }
  split; [|split].
  - intros i v Hi C In1. apply E. destruct (FULL i Hi) as (q & R & ->). cbn [obind].
    destruct (row_attr b1 names i q name rows Hwf Ht R In1) as (v' & -> & C'). cbn [obind].
    destruct C as (l & G & N1). destruct C' as (l' & G' & N1'). rewrite G in G'. injection G' as <-. rewrite N1 in N1'. now injection N1' as <-.
  - intros Hi. apply E. rewrite H2; [reflexivity|]. intros (i & J). apply Hi. exists i. now apply HO.
  - intros i Hi NI. apply E. destruct (FULL i Hi) as (q & [R _] & ->). cbn [obind]. unfold p_attr.
    destruct (dget str_eqb (lower name) q) as [v|] eqn:G; [|reflexivity]. exfalso. apply NI. rewrite <- R.
    apply (dget_In _ str_eqb_spec) in G. apply in_map_iff. exists (lower name, v). now split.
Qed.

(** A packet without the value of one of its keys. *)
Lemma read_missing_key : forall repr derive p k, In k (s_key p) -> dget str_eqb (lower k) (s_atts p) = None ->
  (forall name b, exists b', derive name b = Ret b') -> forall n name b, dget str_eqb (lower name) (s_atts p) = None ->
  read_attr n repr derive p name b = Raise RecursionErr.
Proof.
  intros repr derive p k I K D. induction n as [|n IH]; intros name b H; cbn [read_attr]; rewrite H; [reflexivity|].
  destruct (D name b) as (b1 & ->). cbn [obind].
  assert (X : forall ks b2 acc, In k ks -> key_dict (read_attr n repr derive p) ks b2 acc = Raise RecursionErr).
  { induction ks as [|a ks IHk]; intros b2 acc J; [destruct J|]. cbn [key_dict].
    destruct (dget str_eqb (lower a) (s_atts p)) as [v|] eqn:A.
    - rewrite (read_present _ _ _ _ _ _ _ A). cbn [obind]. destruct J as [-> | J]; [congruence|]. now apply IHk.
    - rewrite (IH a b2 A). reflexivity. }
  rewrite (X _ _ _ I). reflexivity.
Qed.
Lemma read_error : forall n repr derive p name b e, dget str_eqb (lower name) (s_atts p) = None -> derive name b = Raise e ->
  read_attr (S n) repr derive p name b = Raise e.
Proof. intros n repr derive p name b e H D. cbn [read_attr]. rewrite H, D. reflexivity. Qed.
