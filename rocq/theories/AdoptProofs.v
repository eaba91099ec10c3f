From Coq Require Import String Ascii List NArith PeanoNat Bool Lia.
From Verif Require Import PyBase PyFacts StarBlockModel ValidateModel TreeModel ImportModel CollectionModel AdoptModel AdoptSpec.
Import ListNotations.
Open Scope nat_scope.

Lemma dg_In {V} (d : list (str * V)) k v : dget str_eqb k d = Some v -> In (k, v) d.
Proof. apply (dget_In str_eqb str_eqb_spec). Qed.
Lemma dg_None {V} (d : list (str * V)) k : dget str_eqb k d = None <-> ~ In k (map fst d).
Proof. apply (dget_None str_eqb str_eqb_spec). Qed.
Lemma dg_key {V} (d : list (str * V)) k : In k (map fst d) <-> exists v, dget str_eqb k d = Some v.
Proof.
  split.
  - intros H. destruct (dget str_eqb k d) as [v|] eqn:E; [now exists v|]. apply dg_None in E. contradiction.
  - intros (v & H). apply dg_In in H. now apply (in_map fst) in H.
Qed.
Lemma has_key d key : d_has d key = true <-> In (lower key) (map fst (d_ids d)).
Proof. unfold d_has. apply (dmem_In str_eqb str_eqb_spec). Qed.
Lemma has_not d key : d_has d key = false <-> ~ In (lower key) (map fst (d_ids d)).
Proof. unfold d_has. apply (dmem_false str_eqb str_eqb_spec). Qed.
Lemma source_lower src a t : orderly src -> source_of src a t -> lower a = a.
Proof. intros O ((b & H & _) & _). now apply (o_lower _ O a b). Qed.
Lemma source_get src key t : orderly src -> source_of src (lower key) t -> d_get src key = Ret t.
Proof. intros O ((b & H & Hb) & _). unfold d_get. rewrite (dget_In_NoDup str_eqb str_eqb_spec _ _ _ (o_once _ O) H). now rewrite Hb. Qed.
Lemma source_same src a t t' : orderly src -> source_of src a t -> source_of src a t' -> t = t'.
Proof. intros O H H'. pose proof (source_lower _ _ _ O H) as L. rewrite <- L in H, H'. apply (source_get _ _ _ O) in H. apply (source_get _ _ _ O) in H'. congruence. Qed.
Lemma fix_plain key : (forall c, In c (lower key) -> c <> 32%N /\ c <> 9%N) -> fix_name true key = key.
Proof.
  intros H. unfold fix_name. transitivity (map (fun x => x) key); [|apply map_id]. apply map_ext_in. intros c Hc.
  destruct (N.eqb_spec c 32) as [-> |N1]; [|destruct (N.eqb_spec c 9) as [-> |N2]; [|reflexivity]].
  - exfalso. destruct (H 32%N) as [K _]; [|now apply K]. apply (in_map lower_char) in Hc. exact Hc.
  - exfalso. destruct (H 9%N) as [_ K]; [|now apply K]. apply (in_map lower_char) in Hc. exact Hc.
Qed.
(** A new definition under its id. *)
Lemma set_new d key t i : ~ In (lower key) (map fst (d_blocks d)) -> ~ In (lower key) (map fst (d_ids d)) -> length key <= 75 -> (forall c, In c (lower key) -> c <> 32%N /\ c <> 9%N) -> tget (u "_definition.id") t = Some (VStr i) ->
  dic_set d key t = (mkDic (d_blocks d ++ [(lower key, t)]) (d_tops d ++ [lower key]) (dset str_eqb i key (dset str_eqb i (lower key) (d_ids d))), Ret tt).
Proof.
  intros Nb Ni L P E. unfold dic_set, dic_new, coll_new. assert (Nat.ltb 75 (length key) = false) as -> by (apply Nat.ltb_ge; exact L). rewrite (fix_plain key P).
  assert (dmem str_eqb (lower key) (d_blocks d) = false) as -> by (apply (dmem_false str_eqb str_eqb_spec); exact Nb).
  set (d1 := mkDic _ _ _). assert (d_get d1 (lower key) = Ret t) as ->.
  { unfold d_get, d1. cbn [d_blocks d_ids]. rewrite lower_idem. apply dg_None in Ni. rewrite Ni. rewrite (dget_app str_eqb str_eqb_spec). apply dg_None in Nb. rewrite Nb. cbn [dget]. now rewrite str_eqb_refl. }
  assert (defid t = Ret i) as Ei by (unfold defid, a_defid; now rewrite E). cbn [obind]. rewrite Ei. reflexivity.
Qed.

Section Take.
  Context (src d0 : dic) (on_dupl : str) (Ts : takeable src) (Od : orderly d0).
  (** What holds after the keys [l] were taken. *)
  Record after (l : list str) (d : dic) : Prop := {
    a_ids : forall k b, dget str_eqb k (d_ids d0) = Some b -> dget str_eqb k (d_ids d) = Some b;
    a_new : forall k b, dget str_eqb k (d_ids d) = Some b -> dget str_eqb k (d_ids d0) = Some b \/ (In (lower k) l /\ lower b = lower k /\ d_has d0 k = false);
    a_old : forall k t, dget str_eqb k (d_blocks d0) = Some t -> dget str_eqb k (d_blocks d) = Some t;
    a_got : forall a t, In a l -> d_has d0 a = false -> source_of src a t -> dget str_eqb a (d_blocks d) = Some t;
    a_only : forall k, In k (map fst (d_blocks d)) -> In k (map fst (d_blocks d0)) \/ In k l }.
  Lemma after_nil : after [] d0.
  Proof. constructor; auto. intros a t []. Qed.
  Lemma after_skip l d a : after l d -> d_has d0 a = true -> lower a = a -> after (l ++ [a]) d.
  Proof.
    intros A Ha La. constructor.
    - apply (a_ids _ _ A).
    - intros k b H. destruct (a_new _ _ A k b H) as [K|(K1 & K2 & K3)]; [now left|right]. split; [apply in_or_app; now left|auto].
    - apply (a_old _ _ A).
    - intros a' t H N S. apply in_app_or in H. destruct H as [H|[<-|[]]]; [now apply (a_got _ _ A)|congruence].
    - intros k H. destruct (a_only _ _ A k H) as [K|K]; [now left|right; apply in_or_app; now left].
  Qed.
  (** A key that is new. *)
  Lemma after_add l d key t : after l d -> source_of src (lower key) t -> ~ In (lower key) l -> ~ In (lower key) (map fst (d_blocks d0)) -> d_has d0 key = false ->
    exists d', dic_set d key t = (d', Ret tt) /\ after (l ++ [lower key]) d'.
  Proof.
    intros A S Nl Nb Nh. pose proof S as ((b0 & Hb0 & Hb1) & (i & Ei & Li) & Len & Bl). rewrite lower_length in Len.
    assert (~ In (lower key) (map fst (d_blocks d))) as Nb' by (intros K; destruct (a_only _ _ A _ K); contradiction).
    assert (~ In (lower key) (map fst (d_ids d))) as Ni'.
    { intros K. apply dg_key in K. destruct K as (b & K). destruct (a_new _ _ A _ _ K) as [K'|(K1 & _)]; [|rewrite lower_idem in K1; contradiction]. apply has_not in Nh. apply Nh. apply dg_key. now exists b. }
    rewrite (set_new d key t i Nb' Ni' Len Bl Ei). eexists. split; [reflexivity|].
    assert (forall k b, dget str_eqb k (d_ids d0) = Some b -> k <> i) as Fr.
    { intros k b H ->. pose proof (o_lower _ Od i b (dg_In _ _ _ H)) as K. rewrite Li in K. apply has_not in Nh. apply Nh. rewrite K. apply dg_key. now exists b. }
    constructor; cbn [d_ids d_blocks].
    - intros k b H. pose proof (Fr k b H) as N. rewrite (dget_dset_neq str_eqb str_eqb_spec) by exact N. rewrite (dget_dset_neq str_eqb str_eqb_spec) by exact N. now apply (a_ids _ _ A).
    - intros k b H. destruct (str_eqb_spec k i) as [-> |N].
      + rewrite (dget_dset_eq str_eqb str_eqb_spec) in H. injection H as <-. right. rewrite Li. split; [apply in_or_app; right; now left|]. split; [reflexivity|]. apply has_not. rewrite Li. now apply has_not.
      + rewrite (dget_dset_neq str_eqb str_eqb_spec) in H by exact N. rewrite (dget_dset_neq str_eqb str_eqb_spec) in H by exact N. destruct (a_new _ _ A k b H) as [K|(K1 & K2 & K3)]; [now left|right]. split; [apply in_or_app; now left|auto].
    - intros k t' H. rewrite (dget_app str_eqb str_eqb_spec). now rewrite (a_old _ _ A k t' H).
    - intros a t' H N S'. rewrite (dget_app str_eqb str_eqb_spec). apply in_app_or in H. destruct H as [H|[<-|[]]]; [now rewrite (a_got _ _ A a t' H N S')|]. apply dg_None in Nb'. rewrite Nb'. cbn [dget]. rewrite str_eqb_refl. f_equal. apply (source_same src (lower key)); [now apply (t_orderly _ Ts)|exact S|exact S'].
    - intros k H. rewrite map_app in H. apply in_app_or in H. destruct H as [H|[<-|[]]]; [destruct (a_only _ _ A k H); [now left|right; apply in_or_app; now left]|right; apply in_or_app; right; now left].
  Qed.
  (** The key of the dictionary [d] stays as it was for those not taken. *)
  Lemma has_after l d a : after l d -> ~ In (lower a) l -> d_has d a = d_has d0 a.
  Proof.
    intros A N. destruct (d_has d0 a) eqn:H0.
    - apply has_key in H0. apply has_key. apply dg_key in H0. destruct H0 as (b & H0). apply dg_key. exists b. now apply (a_ids _ _ A).
    - apply has_not. intros K. apply dg_key in K. destruct K as (b & K). destruct (a_new _ _ A _ _ K) as [K'|(K1 & _)]; [|rewrite lower_idem in K1; contradiction]. apply has_not in H0. apply H0. apply dg_key. now exists b.
  Qed.
  (** Reading afterwards. *)
  Lemma after_own l d x : after l d -> d_has d0 x = true -> d_get d x = d_get d0 x.
  Proof.
    intros A H. apply has_key in H. apply dg_key in H. destruct H as (b & H). destruct (o_block _ Od _ _ (dg_In _ _ _ H)) as (t & Ht & _). unfold d_get. rewrite (a_ids _ _ A _ _ H), H, (a_old _ _ A _ _ Ht), Ht. reflexivity.
  Qed.
  Lemma after_taken l d x t : after l d -> In (lower x) l -> d_has d0 x = false -> source_of src (lower x) t -> d_get d x = Ret t.
  Proof.
    intros A H N S. assert (dget str_eqb (lower x) (d_blocks d) = Some t) as Ht. { apply (a_got _ _ A); [exact H| |exact S]. apply has_not. rewrite lower_idem. now apply has_not. }
    unfold d_get. rewrite Ht. destruct (dget str_eqb (lower x) (d_ids d)) as [b|] eqn:E; [|reflexivity]. destruct (a_new _ _ A _ _ E) as [K|(_ & K2 & _)]; [apply has_not in N; elim N; apply dg_key; now exists b|]. rewrite K2, lower_idem, Ht. reflexivity.
  Qed.
  Lemma after_other l d x : after l d -> ~ In (lower x) l -> d_get d x = d_get d0 x.
  Proof.
    intros A N. destruct (d_has d0 x) eqn:H; [now apply (after_own l)|]. apply has_not in H. unfold d_get. pose proof H as H1. apply dg_None in H1. rewrite H1.
    assert (dget str_eqb (lower x) (d_ids d) = None) as ->. { apply dg_None. intros K. apply dg_key in K. destruct K as (b & K). destruct (a_new _ _ A _ _ K) as [K'|(K1 & _)]; [congruence|rewrite lower_idem in K1; contradiction]. }
    destruct (dget str_eqb (lower x) (d_blocks d0)) as [t|] eqn:E; [now rewrite (a_old _ _ A _ _ E)|]. assert (dget str_eqb (lower x) (d_blocks d) = None) as ->; [|reflexivity]. apply dg_None. intros K. destruct (a_only _ _ A _ K) as [K'|K']; [|contradiction]. apply dg_None in E. contradiction.
  Qed.

  Lemma cat_test a t cat : source_of src a t -> lower cat <> [] -> exists c, obind (d_get src a) cat_of = Ret c /\ (str_eqb c (lower cat) = true <-> in_category cat t).
  Proof.
    intros S Nc. pose proof (source_lower _ _ _ (t_orderly _ Ts) S) as La. rewrite (source_get src a t (t_orderly _ Ts)) by (rewrite La; exact S). cbn [obind]. unfold cat_of. fold a_category. destruct (tget a_category t) as [v|] eqn:E.
    - destruct (t_text _ Ts a t v S E) as (c & ->). exists (lower c). split; [reflexivity|]. split.
      + intros H. exists c. split; [exact E|]. now destruct (str_eqb_spec (lower c) (lower cat)).
      + intros (c' & E' & H). fold a_category in E'. rewrite E in E'. injection E' as ->. rewrite H. apply str_eqb_refl.
    - exists []. split; [reflexivity|]. split; [intros H; destruct (str_eqb_spec [] (lower cat)) as [K|K]; [elim Nc; now symmetry|discriminate]|intros (c' & E' & _); fold a_category in E'; congruence].
  Qed.
  Lemma members_after cat keys : lower cat <> [] -> NoDup keys -> (forall a, In a keys -> In a (map fst (d_ids src))) ->
    (forall a t, In a keys -> source_of src a t -> in_category cat t -> d_has d0 a = true /\ on_dupl = u "Ignore" \/ d_has d0 a = false /\ ~ In a (map fst (d_blocks d0))) ->
    forall l d, after l d -> (forall a t, In a keys -> source_of src a t -> in_category cat t -> ~ In a l) ->
    exists d' l', add_members src cat on_dupl keys d = (d', Ret tt) /\ after l' d' /\ forall a, In a l' <-> In a l \/ (In a keys /\ exists t, source_of src a t /\ in_category cat t).
  Proof.
    intros Nc. induction keys as [|a keys IH]; intros Nk Hk Hd l d A Nl; cbn [add_members].
    - exists d, l. split; [reflexivity|]. split; [exact A|]. intros x. split; [now left|intros [H|[[] _]]; exact H].
    - apply NoDup_cons_iff in Nk. destruct Nk as [Na Nk]. destruct (t_source _ Ts a (Hk a (or_introl eq_refl))) as (t & S). pose proof (source_lower _ _ _ (t_orderly _ Ts) S) as La. destruct (cat_test a t cat S Nc) as (c & -> & Hc). destruct (str_eqb c (lower cat)) eqn:Ec.
      + pose proof (proj1 Hc eq_refl) as Ic. pose proof (Nl a t (or_introl eq_refl) S Ic) as Nla. unfold add_one_defn. rewrite (has_after l d a A) by (rewrite La; exact Nla).
        assert (exists d1, (if d_has d0 a then if str_eqb on_dupl (u "Ignore") then (d, Ret tt) else if str_eqb on_dupl (u "Exit") then (d, Raise CifErr) else take src a d else take src a d) = (d1, Ret tt) /\ after (l ++ [a]) d1) as (d1 & E1 & A1).
        { destruct (Hd a t (or_introl eq_refl) S Ic) as [[H1 ->]|[H1 H2]]; rewrite H1.
          - rewrite str_eqb_refl. exists d. split; [reflexivity|]. now apply after_skip.
          - unfold take. rewrite (source_get src a t (t_orderly _ Ts)) by (rewrite La; exact S). rewrite <- La. rewrite <- La in S, Nla, H2. rewrite La in *. destruct (after_add l d a t A) as (d' & Ed & Ad); rewrite ?La; auto. exists d'. rewrite La in Ad. now split. }
        rewrite E1. cbn [then_do]. destruct (IH Nk) with (l := l ++ [a]) (d := d1) as (d2 & l2 & E2 & A2 & H2); [intros x Hx; apply Hk; now right|intros x tx Hx; apply Hd; now right|exact A1| |].
        { intros x tx Hx Sx Ix K. apply in_app_or in K. destruct K as [K|[<-|[]]]; [apply (Nl x tx (or_intror Hx) Sx Ix K)|contradiction]. }
        exists d2, l2. split; [exact E2|]. split; [exact A2|]. intros x. rewrite H2, in_app_iff. cbn [In]. split.
        * intros [[H|[<-|[]]]|(H & K)]; [now left|right; split; [now left|now exists t]|right; split; [now right|exact K]].
        * intros [H|([<-|H] & K)]; [now left; left|left; right; now left|right; now split].
      + destruct (IH Nk) with (l := l) (d := d) as (d2 & l2 & E2 & A2 & H2); [intros x Hx; apply Hk; now right|intros x tx Hx; apply Hd; now right|exact A|intros x tx Hx; apply Nl; now right|].
        exists d2, l2. split; [exact E2|]. split; [exact A2|]. intros x. rewrite H2. cbn [In]. split; [intros [H|(H & K)]; [now left|right; split; [now right|exact K]]|]. intros [H|([<-|H] & tx & Sx & Ix)]; [now left| |right; split; [exact H|now exists tx]].
        exfalso. assert (tx = t) as -> by (apply (source_same src a); [now apply (t_orderly _ Ts)|exact Sx|exact S]). apply Hc in Ix. discriminate.
  Qed.
End Take.
