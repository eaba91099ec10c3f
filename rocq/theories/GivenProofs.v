(** Writing in a given order. *)
From Coq Require Import String Ascii List NArith ZArith Bool Lia Permutation.
From Verif Require Import PyBase PyFacts StarBlockModel ScanModel OrderModel WriteModel CollectionModel FileModel GivenModel
  CollectionSpec FileSpec GivenSpec CollectionProofs CollectionProofs2 CollectionProofs3 CollectionProofs4.
Import ListNotations.
Open Scope nat_scope.

Definition sec_keys (l : list wsec) : list str := flat_map (fun s => match s with WHead k | WFrame k => [k] | _ => [] end) l.

Section Given.
Context (maxout : Z) (hs : list hint).

Lemma listed_all l : forall c names left, take_names (sec_keys l) names = Ret left ->
  write_listed maxout hs l c names = obind (write_secs maxout hs l c) (fun t => Ret (t, left)).
Proof.
  induction l as [|s l IH]; intros c names left H.
  - injection H as <-. reflexivity.
  - destruct s as [k|k|k|k|k]; cbn [sec_keys flat_map app write_listed write_secs] in *; fold (sec_keys l) in *.
    + cbn [take_names] in H. destruct (take_name k names) as [n1|e]; [|discriminate H]. cbn [obind] in H.
      destruct (id_of k c); [|reflexivity]. cbn [obind]. rewrite (IH _ _ _ H). now destruct (write_secs maxout hs l c).
    + cbn [take_names] in H. destruct (take_name k names) as [n1|e]; [|discriminate H]. cbn [obind] in H.
      destruct (id_of k c); [|reflexivity]. cbn [obind]. destruct (body_text maxout hs k c); [|reflexivity]. cbn [obind]. rewrite (IH _ _ _ H). now destruct (write_secs maxout hs l c).
    + destruct (body_text maxout hs k c); [|reflexivity]. cbn [obind]. rewrite (IH _ _ _ H). now destruct (write_secs maxout hs l c).
    + destruct (c_get k c); [|reflexivity]. cbn [obind]. destruct (print_part _ _ _ _ _); [|reflexivity]. cbn [obind]. rewrite (IH _ _ _ H). now destruct (write_secs _ _ _ _).
    + destruct (c_get k c); [|reflexivity]. cbn [obind]. destruct (print_part _ _ _ _ _); [|reflexivity]. cbn [obind]. rewrite (IH _ _ _ H). now destruct (write_secs _ _ _ _).
Qed.
(** If a name cannot be taken, there is an error; it is that of taking if all can be
    written. *)
Lemma listed_fails l : forall c names e, take_names (sec_keys l) names = Raise e ->
  (exists e', write_listed maxout hs l c names = Raise e') /\ (forall t, write_secs maxout hs l c = Ret t -> write_listed maxout hs l c names = Raise e).
Proof.
  induction l as [|s l IH]; intros c names e H; [discriminate H|].
  destruct s as [k|k|k|k|k]; cbn [sec_keys flat_map app write_listed write_secs] in *; fold (sec_keys l) in *.
  - cbn [take_names] in H. destruct (id_of k c) as [n|?]; cbn [obind]; [|split; [eauto|intros t X; discriminate X]].
    destruct (take_name k names) as [n1|e1]; cbn [obind] in *.
    + destruct (IH c n1 e H) as [(e' & E1) E2]. split.
      * rewrite E1. cbn [obind]. eauto.
      * intros t X. destruct (write_secs maxout hs l c) as [t'|]; [|discriminate X]. rewrite (E2 _ eq_refl). reflexivity.
    + injection H as ->. split; [eauto|intros; reflexivity].
  - cbn [take_names] in H. destruct (id_of k c) as [n|?]; cbn [obind]; [|split; [eauto|intros t X; discriminate X]].
    destruct (body_text maxout hs k c) as [b|?]; cbn [obind]; [|split; [eauto|intros t X; discriminate X]].
    destruct (take_name k names) as [n1|e1]; cbn [obind] in *.
    + destruct (IH c n1 e H) as [(e' & E1) E2]. split.
      * rewrite E1. cbn [obind]. eauto.
      * intros t X. destruct (write_secs maxout hs l c) as [t'|]; [|discriminate X]. rewrite (E2 _ eq_refl). reflexivity.
    + injection H as ->. split; [eauto|intros; reflexivity].
  - destruct (body_text maxout hs k c) as [b|?]; cbn [obind]; [|split; [eauto|intros t X; discriminate X]].
    destruct (IH c names e H) as [(e' & E1) E2]. split; [rewrite E1; cbn [obind]; eauto|].
    intros t X. destruct (write_secs maxout hs l c) as [t'|]; [|discriminate X]. rewrite (E2 _ eq_refl). reflexivity.
  - destruct (c_get k c) as [b|?]; cbn [obind]; [|split; [eauto|intros t X; discriminate X]].
    destruct (print_part _ _ _ _ _) as [x|?]; cbn [obind]; [|split; [eauto|intros t X; discriminate X]].
    match goal with |- context[write_secs maxout hs l ?c1] => destruct (IH c1 names e H) as [(e' & E1) E2] end. split; [rewrite E1; cbn [obind]; eauto|].
    intros t X. destruct (write_secs maxout hs l _) as [t'|]; [|discriminate X]. rewrite (E2 _ eq_refl). reflexivity.
  - destruct (c_get k c) as [b|?]; cbn [obind]; [|split; [eauto|intros t X; discriminate X]].
    destruct (print_part _ _ _ _ _) as [x|?]; cbn [obind]; [|split; [eauto|intros t X; discriminate X]].
    destruct (IH c names e H) as [(e' & E1) E2]. split; [rewrite E1; cbn [obind]; eauto|].
    intros t X. destruct (write_secs maxout hs l _) as [t'|]; [|discriminate X]. rewrite (E2 _ eq_refl). reflexivity.
Qed.
End Given.

Lemma take_all ks : forall names, NoDup names -> NoDup ks -> (forall x, In x ks -> In x names) ->
  take_names ks names = Ret (filter (fun x => negb (mem str_eqb x ks)) names).
Proof.
  induction ks as [|k ks IH]; intros names N Nk H; cbn [take_names].
  - f_equal. cbn [mem]. symmetry. induction names as [|x l IHl]; [reflexivity|]. cbn. f_equal. apply IHl; [now inversion N|intros y []].
  - inversion Nk as [|? ? Hk Nk']; subst. unfold take_name. rewrite (proj2 (mem_In str_eqb str_eqb_spec k names)) by (apply H; now left). cbn [obind].
    rewrite IH; [|now apply remove1_NoDup; [exact str_eqb_spec|]|assumption|].
    + f_equal. rewrite (remove1_NoDup_filter str_eqb str_eqb_spec) by assumption. clear. induction names as [|x l IHl]; [reflexivity|].
      cbn [filter]. assert (mem str_eqb x (k :: ks) = true <-> k = x \/ In x ks) as M by (rewrite (mem_In str_eqb str_eqb_spec); reflexivity).
      assert (mem str_eqb x ks = true <-> In x ks) as M' by apply (mem_In str_eqb str_eqb_spec).
      destruct (str_eqb_spec k x) as [E|E]; cbn [negb].
      * rewrite (proj2 M) by now left. cbn [negb]. exact IHl.
      * cbn [filter]. destruct (mem str_eqb x ks) eqn:E1; cbn [negb].
        -- rewrite (proj2 M) by (right; now apply M'). cbn [negb]. exact IHl.
        -- destruct (mem str_eqb x (k :: ks)) eqn:E2; cbn [negb]; [|now f_equal]. destruct (proj1 M eq_refl) as [X|X]; [contradiction|]. apply M' in X. discriminate X.
    + intros x Hx. apply (remove1_in_neq str_eqb str_eqb_spec); [|apply H; now right]. intros ->. contradiction.
Qed.
Lemma take_twice ks : forall names, NoDup names -> ~ NoDup ks -> take_names ks names = Raise ValueErr.
Proof.
  induction ks as [|k ks IH]; intros names N Nk; [exfalso; apply Nk; constructor|]. cbn [take_names]. unfold take_name.
  destruct (mem str_eqb k names) eqn:E; [|reflexivity]. cbn [obind].
  destruct (in_dec (list_eq_dec N.eq_dec) k ks) as [Hk|Hk].
  - clear IH Nk. assert (~ In k (remove1 str_eqb k names)) as A by now apply (remove1_NoDup_notin str_eqb str_eqb_spec).
    revert A. generalize (remove1 str_eqb k names) as l. clear E N. induction ks as [|y ks IH]; intros l A; [destruct Hk|]. cbn [take_names]. unfold take_name.
    destruct (mem str_eqb y l) eqn:E; [|reflexivity]. cbn [obind]. destruct Hk as [<-|Hk].
    + apply (mem_In str_eqb str_eqb_spec) in E. contradiction.
    + apply IH; [assumption|]. intros X. apply A. exact (remove1_incl str_eqb str_eqb_spec _ _ _ X).
  - apply IH; [now apply remove1_NoDup; [exact str_eqb_spec|]|]. intros X. apply Nk. now constructor.
Qed.

Section Plan.
Variable c : coll.
Hypothesis W : CWF c.
Lemma given_tops order tops :
    exists frames : str -> list str,
      write_tops tops (set_corder order c) = Ret (concat (map (fun r => section (c_std c) r (frames r)) tops)) /\
      forall r, In r (ckeys c) -> (forall x, In x order -> In x (ckeys c)) -> exists keep, frames r = filter keep order /\
        forall x, In x order -> (keep x = true <-> below c r x).
Proof using W.
  set (t := fun r x => match is_child_of_parent r x c with Ret t => t | Raise _ => false end).
  exists (fun r => filter (t r) order).
  assert (F : forall r l, filter_ok (fun a => is_child_of_parent r a (set_corder order c)) l = Ret (filter (t r) l)).
  { intros r l. induction l as [|x l IH]; [reflexivity|]. cbn [filter_ok filter].
    change (is_child_of_parent r x (set_corder order c)) with (is_child_of_parent r x c). unfold t at 1.
    destruct (is_child_ok c W r x) as (b & E & _). rewrite E. cbn [obind]. rewrite IH. reflexivity. }
  split.
  - induction tops as [|k tops IH]; [reflexivity|]. cbn [write_tops]. change (c_order (set_corder order c)) with order. rewrite F. cbn [obind]. rewrite IH. reflexivity.
  - intros r Hr Ho. exists (t r). split; [reflexivity|]. intros x Hx. unfold t. destruct (is_child_ok c W r x) as (b & E & E'). rewrite E, E'.
    rewrite (cw_low _ W r) by assumption. rewrite (cw_low _ W x) by now apply Ho. reflexivity.
Qed.
Lemma plan_sec_keys s (frames : str -> list str) tops :
  sec_keys (concat (map (fun r => section s r (frames r)) tops)) = concat (map (fun r => r :: frames r) tops).
Proof.
  assert (forall l, sec_keys (map WFrame l) = l) as Hm by (induction l as [|x l IH]; [reflexivity|]; change (x :: sec_keys (map WFrame l) = x :: l); now rewrite IH).
  assert (forall l l', sec_keys (l ++ l') = sec_keys l ++ sec_keys l') as Ha by (intros; apply flat_map_app).
  induction tops as [|r tops IH]; [reflexivity|]. cbn [map concat]. rewrite Ha, IH. f_equal.
  unfold section. assert (forall l, sec_keys (WHead r :: l) = r :: sec_keys l) as -> by reflexivity. f_equal.
  assert (sec_keys (map WFrame (frames r) ++ [WBody r]) = frames r) as E1 by (rewrite Ha, Hm; cbn; apply app_nil_r).
  assert (sec_keys (map WFrame (frames r) ++ [WBodyFrom r]) = frames r) as E2 by (rewrite Ha, Hm; cbn; apply app_nil_r).
  destruct s; [exact E1|exact E1|exact E2].
Qed.
Lemma not_kept (keep : str -> bool) (P : str -> Prop) l : (forall x, In x l -> (keep x = true <-> P x)) -> without (fun x => ~ P x) l (filter keep l).
Proof.
  intros H. exists keep. split; [|reflexivity]. intros x Hx. specialize (H x Hx). destruct (keep x); split; intros X; try congruence.
  - exfalso. now apply X, H.
  - intros Y. now apply H in Y.
Qed.
Lemma kept_in P l l' x : without (fun x => ~ P x) l l' -> (In x l' -> In x l /\ ~ ~ P x) /\ (In x l -> P x -> In x l').
Proof.
  intros (keep & H & ->). split.
  - intros Hx. apply filter_In in Hx as [Hx K]. split; [assumption|]. intros N. apply (H x Hx) in N. congruence.
  - intros Hx Px. apply filter_In. split; [assumption|]. destruct (keep x) eqn:E; [reflexivity|]. exfalso. now apply (H x Hx).
Qed.
Lemma given_plan order : (forall x, In x order -> In x (ckeys c)) ->
  exists tops frames, top_blocks order (c_child c) = Ret tops /\
    write_tops tops (set_corder order c) = Ret (concat (map (fun r => section (c_std c) r (frames r)) tops)) /\
    without (fun x => ~ root c x) order tops /\ (forall r, In r tops -> without (fun x => ~ below c r x) order (frames r)) /\
    (forall x, In x (concat (map (fun r => r :: frames r) tops)) <-> placed c order x) /\
    (NoDup order -> NoDup (concat (map (fun r => r :: frames r) tops))) /\
    (forall x, listed_twice x order -> placed c order x -> ~ NoDup (concat (map (fun r => r :: frames r) tops))).
Proof using W.
  intros Ho. destruct (top_blocks_ok c W order Ho) as (keep & Et & Hk). destruct (given_tops order (filter keep order)) as (frames & Ew & Hf).
  exists (filter keep order), frames. split; [assumption|]. split; [assumption|]. split; [now apply not_kept|].
  assert (Hr : forall r, In r (filter keep order) <-> In r order /\ root c r).
  { intros r. rewrite filter_In. split; intros [H1 H2]; (split; [assumption|now apply Hk]). }
  assert (Hf' : forall r, In r order -> exists keep, frames r = filter keep order /\ forall x, In x order -> (keep x = true <-> below c r x)) by (intros r R; apply Hf; auto).
  split. { intros r R. apply Hr in R as [R _]. destruct (Hf' r R) as (kp & -> & E). now apply not_kept. }
  assert (Hfr : forall r x, In r order -> (In x (frames r) <-> In x order /\ below c r x)).
  { intros r x R. destruct (Hf' r R) as (kp & -> & E). rewrite filter_In. split; intros [H1 H2]; (split; [assumption|now apply E]). }
  split.
  { intros x. rewrite in_concat. split.
    - intros (l & Hl & Hx). apply in_map_iff in Hl as (r & <- & R). apply Hr in R as [R R']. destruct Hx as [<-|Hx]; [split; [assumption|now left]|].
      apply (Hfr r x R) in Hx as [Hx B]. split; [assumption|]. right. exists r. auto.
    - intros [Hx [R|(r & R1 & R2 & B)]].
      + exists (x :: frames x). split; [|now left]. apply (in_map (fun r => r :: frames r)). apply Hr. auto.
      + exists (r :: frames r). split; [|right; apply Hfr; auto]. apply (in_map (fun r => r :: frames r)). apply Hr. auto. }
  split.
  { intros N. assert (Nt : NoDup (filter keep order)) by now apply NoDup_filter. assert (Hr' : forall r, In r (filter keep order) -> In r order /\ root c r) by (intros r; apply Hr).
    revert Nt Hr'. generalize (filter keep order) as tops. clear Et Ew Hr. induction tops as [|r tops IH]; intros Nt Hr; [constructor|]. inversion Nt as [|? ? Nr Nt']; subst.
    cbn [map concat]. apply NoDup_app_iff. destruct (Hr r (or_introl eq_refl)) as [R R']. split; [|split].
    - constructor; [|destruct (Hf' r R) as (kp & -> & _); now apply NoDup_filter]. intros X. apply (Hfr r r R) in X as [_ X]. exact (cw_acyclic _ W _ X).
    - apply IH; [assumption|]. intros x Hx. apply Hr. now right.
    - intros x Hx Hx'. apply in_concat in Hx' as (l & Hl & Hx'). apply in_map_iff in Hl as (r' & <- & Ir'). destruct (Hr r' (or_intror Ir')) as [Q Q'].
      destruct Hx as [<-|Hx]; destruct Hx' as [E|Hx'].
      + subst. contradiction.
      + apply (Hfr r' r Q) in Hx' as [_ X]. exact (root_below c W _ _ R' X).
      + subst. apply (Hfr r x R) in Hx as [_ X]. exact (root_below c W _ _ Q' X).
      + apply (Hfr r x R) in Hx as [_ X]. apply (Hfr r' x Q) in Hx' as [_ Y]. pose proof (root_unique c W _ _ _ R' Q' X Y). subst. contradiction. }
  intros x (p & q & s & E) [Hx C] N.
  assert (Two : forall f : str -> bool, f x = true -> ~ NoDup (filter f order)).
  { intros f F. rewrite E, !filter_app. cbn [filter]. rewrite F, filter_app. cbn [filter]. rewrite F. intros X. apply NoDup_app_iff in X as (_ & X & _). inversion X as [|? ? Y _]; subst. apply Y. apply in_app_iff. right. now left. }
  destruct C as [R|(r & R1 & R2 & B)].
  - apply (Two keep); [now apply Hk|]. clear -N. induction (filter keep order) as [|r l IH]; [constructor|]. cbn [map concat] in N. apply NoDup_app_iff in N as (N1 & N2 & N3). constructor; [|now apply IH].
    intros Hr. apply (N3 r); [now left|]. apply in_concat. exists (r :: frames r). split; [now apply (in_map (fun r => r :: frames r))|now left].
  - destruct (Hf' r R1) as (kp & Ef & Ek). apply (Two kp); [now apply Ek|]. rewrite <- Ef. assert (In r (filter keep order)) as Ir by (apply Hr; auto). revert N Ir. clear. induction (filter keep order) as [|y l IH]; intros N Ir; [destruct Ir|].
    cbn [map concat] in N. apply NoDup_app_iff in N as (N1 & N2 & N3). destruct Ir as [->|Ir]; [now inversion N1|now apply IH].
Qed.
End Plan.
