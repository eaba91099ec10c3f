From Coq Require Import String Ascii List NArith PeanoNat Bool Lia.
From Verif Require Import PyBase PyFacts StarBlockModel ValidateModel TreeModel ImportModel CollectionModel AdoptModel AdoptSpec AdoptProofs.
Import ListNotations.
Open Scope nat_scope.

Lemma find_has d key t : d_has d key = true -> d_get d key = Ret t -> t <> [] -> d_find d key = Ret (Some t).
Proof. intros H E N. unfold d_find. rewrite H, E. cbn [obind]. now destruct t. Qed.
Lemma find_not d key : d_has d key = false -> d_find d key = Ret None.
Proof. intros H. unfold d_find. now rewrite H. Qed.
Lemma orderly_find d key : orderly d -> d_has d key = true -> exists t, d_get d key = Ret t /\ d_find d key = Ret (Some t).
Proof.
  intros O H. pose proof H as K. apply has_key in K. apply dg_key in K. destruct K as (b & K). destruct (o_block _ O _ _ (dg_In _ _ _ K)) as (t & Ht & Nt). exists t. assert (d_get d key = Ret t) as E by (unfold d_get; now rewrite K, Ht). split; [exact E|]. now apply find_has.
Qed.
Lemma taken_key src cat a : orderly src -> taken src cat a -> In a (map fst (d_ids src)).
Proof. intros O (t & ((b & H & _) & _) & _). now apply (in_map fst) in H. Qed.

Lemma one_cat_taken src d cat on_dupl on_miss ct : takeable src -> orderly d -> lower cat <> [] -> source_of src (lower cat) ct -> ~ in_category cat ct ->
  (forall a, taken src cat a -> d_has d a = true /\ on_dupl = u "Ignore" \/ d_has d a = false /\ ~ In a (map fst (d_blocks d))) ->
  exists d', get_one_cat src cat on_dupl on_miss d = (d', Ret tt)
    /\ (forall x, d_has d x = true -> d_get d' x = d_get d x)
    /\ (forall x t, d_has d x = false -> taken src cat (lower x) -> source_of src (lower x) t -> d_get d' x = Ret t)
    /\ (forall x, ~ taken src cat (lower x) -> d_get d' x = d_get d x).
Proof.
  intros Ts Od Nc Sc Ic Hd. pose proof (t_orderly _ Ts) as Os. assert (d_has src cat = true) as Hs. { apply has_key. destruct Sc as ((b & H & _) & _). now apply (in_map fst) in H. }
  destruct (orderly_find src cat Os Hs) as (ct' & Eg & Ef). rewrite (source_get src cat ct Os Sc) in Eg. injection Eg as <-. unfold get_one_cat. rewrite Ef.
  assert (taken src cat (lower cat)) as Tc by (exists ct; split; [exact Sc|now left]).
  assert (forall l d1, after src d l d1 -> l = [lower cat] -> exists d', add_members src cat on_dupl (map fst (d_ids src)) d1 = (d', Ret tt)
    /\ (forall x, d_has d x = true -> d_get d' x = d_get d x)
    /\ (forall x t, d_has d x = false -> taken src cat (lower x) -> source_of src (lower x) t -> d_get d' x = Ret t)
    /\ (forall x, ~ taken src cat (lower x) -> d_get d' x = d_get d x)) as G.
  { intros l d1 A ->. destruct (members_after src d on_dupl Ts Od cat (map fst (d_ids src)) Nc (o_once _ Os) (fun a H => H)) with (l := [lower cat]) (d := d1) as (d2 & l2 & E2 & A2 & H2).
    - intros a t _ S I. apply Hd. exists t. split; [exact S|now right].
    - exact A.
    - intros a t _ S I [<-|[]]. apply Ic. now rewrite (source_same src (lower cat) ct t Os Sc S).
    - assert (forall a, In a l2 <-> taken src cat a) as H3.
      { intros a. rewrite H2. split.
        - intros [[<-|[]]|(_ & t & S & I)]; [exact Tc|]. exists t. split; [exact S|now right].
        - intros (t & S & [-> |I]); [left; now left|]. right. split; [|now exists t]. apply (taken_key src cat a Os). exists t. split; [exact S|now right]. }
      exists d2. split; [exact E2|]. split; [intros x H; now apply (after_own src d Od l2)|]. split; [intros x t H T S; apply (after_taken src d l2); [exact A2|now apply H3|exact H|exact S]|].
      intros x N. apply (after_other src d Od l2); [exact A2|]. now rewrite H3. }
  destruct (Hd (lower cat) Tc) as [[H1 H2]|[H1 H2]].
  - assert (d_has d cat = true) as H1' by (apply has_key; apply has_key in H1; now rewrite lower_idem in H1). destruct (orderly_find d cat Od H1') as (t & _ & ->). rewrite H2, str_eqb_refl. cbn [then_do]. rewrite <- H2. apply (G [lower cat]); [|reflexivity]. apply (after_skip src d [] d (lower cat)); [apply after_nil|exact H1|apply lower_idem].
  - assert (d_has d cat = false) as H1' by (apply has_not; apply has_not in H1; now rewrite lower_idem in H1). rewrite (find_not d cat H1'). destruct (after_add src d Ts Od [] d cat ct) as (d1 & E1 & A1); [apply after_nil|exact Sc|intros []|exact H2|exact H1'|]. rewrite E1. cbn [then_do]. now apply (G ([] ++ [lower cat])).
Qed.
Lemma missing_cat src d cat on_dupl on_miss : orderly d -> d_has src cat = false -> get_one_cat src cat on_dupl on_miss d = (d, if str_eqb on_miss (u "Ignore") then Ret tt else Raise CifErr).
Proof.
  intros Od H. unfold get_one_cat. rewrite (find_not src cat H). destruct (d_has d cat) eqn:E; [destruct (orderly_find d cat Od E) as (t & _ & ->)|rewrite (find_not d cat E)]; now destruct (str_eqb on_miss (u "Ignore")).
Qed.

(** With Exit *)
Lemma members_exit src d0 cat : takeable src -> orderly d0 -> lower cat <> [] -> forall keys, NoDup keys -> (forall a, In a keys -> In a (map fst (d_ids src))) ->
  (forall a t, In a keys -> source_of src a t -> in_category cat t -> d_has d0 a = true \/ d_has d0 a = false /\ ~ In a (map fst (d_blocks d0))) ->
  (exists a t, In a keys /\ source_of src a t /\ in_category cat t /\ d_has d0 a = true) ->
  forall l d, after src d0 l d -> (forall a t, In a keys -> source_of src a t -> in_category cat t -> ~ In a l) -> snd (add_members src cat (u "Exit") keys d) = Raise CifErr.
Proof.
  intros Ts Od Nc. induction keys as [|a keys IH]; intros Nk Hk Hd He l d A Nl; cbn [add_members]; [destruct He as (a & t & [] & _)|].
  apply NoDup_cons_iff in Nk. destruct Nk as [Na Nk]. destruct (t_source _ Ts a (Hk a (or_introl eq_refl))) as (t & S). pose proof (source_lower _ _ _ (t_orderly _ Ts) S) as La. destruct (cat_test src Ts a t cat S Nc) as (c & -> & Hc). destruct (str_eqb c (lower cat)) eqn:Ec.
  - pose proof (proj1 Hc eq_refl) as Ic. pose proof (Nl a t (or_introl eq_refl) S Ic) as Nla. unfold add_one_defn. rewrite (has_after src d0 l d a A) by (rewrite La; exact Nla). destruct (d_has d0 a) eqn:Ha; [reflexivity|].
    destruct (Hd a t (or_introl eq_refl) S Ic) as [K|[_ H2]]; [congruence|]. unfold take. rewrite (source_get src a t (t_orderly _ Ts)) by (rewrite La; exact S). destruct (after_add src d0 Ts Od l d a t A) as (d' & Ed & Ad); rewrite ?La; auto. rewrite Ed. cbn [then_do]. apply (IH Nk) with (l := l ++ [lower a]); [intros x Hx; apply Hk; now right|intros x tx Hx; apply Hd; now right| |exact Ad|].
    + destruct He as (x & tx & [<-|Hx] & Sx & Ix & Dx); [congruence|]. exists x, tx. auto.
    + intros x tx Hx Sx Ix K. apply in_app_or in K. destruct K as [K|[K|[]]]; [apply (Nl x tx (or_intror Hx) Sx Ix K)|]. rewrite La in K. subst x. contradiction.
  - apply (IH Nk) with (l := l); [intros x Hx; apply Hk; now right|intros x tx Hx; apply Hd; now right| |exact A|intros x tx Hx; apply Nl; now right].
    destruct He as (x & tx & [<-|Hx] & Sx & Ix & Dx); [|exists x, tx; auto]. exfalso. assert (tx = t) as -> by (apply (source_same src a); [now apply (t_orderly _ Ts)|exact Sx|exact S]). apply Hc in Ix. discriminate.
Qed.
Lemma one_cat_exit src d cat on_miss ct : takeable src -> orderly d -> lower cat <> [] -> source_of src (lower cat) ct -> ~ in_category cat ct ->
  (forall a, taken src cat a -> d_has d a = true \/ d_has d a = false /\ ~ In a (map fst (d_blocks d))) -> (exists a, taken src cat a /\ d_has d a = true) ->
  snd (get_one_cat src cat (u "Exit") on_miss d) = Raise CifErr /\ (d_has d cat = true -> fst (get_one_cat src cat (u "Exit") on_miss d) = d).
Proof.
  intros Ts Od Nc Sc Ic Hd (a & Ta & Da). pose proof (t_orderly _ Ts) as Os. assert (d_has src cat = true) as Hs. { apply has_key. destruct Sc as ((b & H & _) & _). now apply (in_map fst) in H. }
  destruct (orderly_find src cat Os Hs) as (ct' & Eg & Ef). rewrite (source_get src cat ct Os Sc) in Eg. injection Eg as <-. unfold get_one_cat. rewrite Ef. destruct (d_has d cat) eqn:Hc.
  - destruct (orderly_find d cat Od Hc) as (t & _ & ->). cbn [then_do snd fst]. now split.
  - rewrite (find_not d cat Hc). split; [|discriminate]. assert (taken src cat (lower cat)) as Tc by (exists ct; split; [exact Sc|now left]). assert (d_has d (lower cat) = false) as Hl by (apply has_not; apply has_not in Hc; now rewrite lower_idem).
    destruct (Hd _ Tc) as [K|[_ Nb]]; [congruence|]. destruct (after_add src d Ts Od [] d cat ct) as (d1 & E1 & A1); [apply after_nil|exact Sc|intros []|exact Nb|exact Hc|]. rewrite E1. cbn [then_do].
    apply (members_exit src d cat Ts Od Nc (map fst (d_ids src)) (o_once _ Os)) with (l := [lower cat]); [auto| | |exact A1|].
    + intros x tx Hx Sx Ix. apply Hd. exists tx. split; [exact Sx|now right].
    + destruct Ta as (ta & Sa & [-> |Ia]); [congruence|]. exists a, ta. repeat split; try apply Sa; auto. apply (taken_key src cat a Os). exists ta. split; [exact Sa|now right].
    + intros x tx _ Sx Ix [<-|[]]. apply Ic. now rewrite (source_same src (lower cat) ct tx Os Sc Sx).
Qed.
