(** Proofs about packets for compound keys. *)
From Coq Require Import String Ascii List NArith PeanoNat Bool Lia.
From Verif Require Import PyBase StarBlockModel LoopModel ValidateModel TreeModel KeyModel PyFacts StarBlockSpec StarBlockProofs LoopSpec LoopProofs LoopProofs2 SemanticModel SemanticSpec SemanticProofs.
Import ListNotations.
Open Scope list_scope.
Open Scope nat_scope.

Lemma find_key_spec equivs b k n : goes_by equivs b k n -> find_key equivs b k = Some n.
Proof.
  intros (l1 & l2 & E & Hn & Hl). unfold find_key. rewrite E. clear E.
  induction l1 as [|a l1 IH]; cbn [app find]; [now rewrite Hn|].
  rewrite (Hl a (or_introl eq_refl)). apply IH. intros x Hx. apply Hl. now right.
Qed.
Lemma find_key_away equivs b k : is_away equivs b k -> find_key equivs b k = None.
Proof.
  intros H. unfold find_key. destruct (find _ _) as [n|] eqn:E; [|reflexivity].
  apply find_some in E. destruct E as [Hi Hn]. apply in_app_iff in Hi.
  assert (has_key n b = false) as F; [|congruence].
  destruct Hi as [Hi|[<-|[]]].
  - destruct (dget str_eqb k equivs) as [l|] eqn:D; [|destruct Hi]. apply (H n l). right. auto.
  - apply (H k []). now left.
Qed.

Lemma true_keys_named equivs b ks ns : Forall2 (goes_by equivs b) ks ns -> true_keys equivs b ks = ns.
Proof.
  induction 1 as [|k n ks ns Hk _ IH]; [reflexivity|]. unfold true_keys. cbn [flat_map].
  rewrite (find_key_spec _ _ _ _ Hk). cbn [app]. f_equal. exact IH.
Qed.
Lemma true_keys_le equivs b ks : length (true_keys equivs b ks) <= length ks.
Proof.
  induction ks as [|k ks IH]; [apply le_n|]. unfold true_keys. cbn [flat_map]. rewrite app_length.
  fold (true_keys equivs b ks). cbn [length]. destruct (find_key equivs b k); cbn [length]; lia.
Qed.
Lemma true_keys_short equivs b ks k : In k ks -> is_away equivs b k -> length (true_keys equivs b ks) < length ks.
Proof.
  intros Hin Ha. induction ks as [|a ks IH]; [destruct Hin|]. unfold true_keys. cbn [flat_map]. rewrite app_length.
  fold (true_keys equivs b ks). cbn [length]. destruct Hin as [->|Hin].
  - rewrite (find_key_away _ _ _ Ha). cbn [length]. pose proof (true_keys_le equivs b ks). lia.
  - specialize (IH Hin). destruct (find_key equivs b a); cbn [length]; lia.
Qed.

Lemma true_keydict_named kd ks ns : length ks = length ns -> NoDup ns -> (forall k, In k ks -> exists x, dget str_eqb k kd = Some x) ->
  forall acc, (forall n, In n ns -> dget str_eqb n acc = None) ->
  exists d, true_keydict kd ns ks acc = Ret d /\
    (forall n x, In (n, x) d <-> In (n, x) acc \/ exists k, In (k, n) (combine ks ns) /\ dget str_eqb k kd = Some x).
Proof.
  intros Hlen Hnd. revert ks Hlen. induction Hnd as [|n ns Hn Hnd IH]; intros [|k ks] Hlen Hkd acc Hacc; try discriminate; cbn [true_keydict].
  - exists acc. split; [reflexivity|]. intros n x. split; [auto|]. intros [H|(k & [] & _)]. exact H.
  - destruct (Hkd k (or_introl eq_refl)) as [x Hx]. rewrite Hx.
    assert (forall (d : keydict), dget str_eqb n d = None -> dset str_eqb n x d = d ++ [(n, x)]) as Hset.
    { induction d as [|[k' v'] d IHd]; [reflexivity|]. cbn [dget dset]. destruct (str_eqb_spec n k'); [discriminate|].
      intros E. rewrite (IHd E). reflexivity. }
    destruct (IH ks (f_equal pred Hlen) (fun y Hy => Hkd y (or_intror Hy)) (dset str_eqb n x acc)) as (d & E & Hd).
    { intros y Hy. rewrite (dget_dset_neq str_eqb str_eqb_spec) by (intros ->; auto). apply Hacc. now right. }
    exists d. split; [exact E|]. intros y v. rewrite Hd, (Hset acc (Hacc n (or_introl eq_refl))), in_app_iff.
    cbn [In combine]. split.
    + intros [[H|[H|[]]]|(k' & H1 & H2)]; [now left| |right; exists k'; auto]. injection H as <- <-. right. exists k. auto.
    + intros [H|(k' & [H1|H1] & H2)]; [auto| |right; exists k'; auto]. injection H1 as <- <-. left. right. left. congruence.
Qed.

Lemma away_gather repr equivs kd b sets : (forall s, In s sets -> exists k, In k s /\ is_away equivs b k) ->
  forall rest m tk, exists tk', multi_gather repr equivs kd (sets ++ rest) b m tk = multi_gather repr equivs kd rest b m tk' /\ (sets = [] -> tk' = tk).
Proof.
  induction sets as [|s sets IH]; intros H rest m tk; [exists tk; auto|]. cbn [app multi_gather].
  destruct (H s (or_introl eq_refl)) as (k & Hk & Ha). pose proof (true_keys_short equivs b s k Hk Ha) as Hlt.
  destruct (Nat.eqb_spec (length (true_keys equivs b s)) (length s)) as [E|_]; [lia|].
  destruct (IH (fun x Hx => H x (or_intror Hx)) rest m (true_keys equivs b s)) as (tk' & E & _). exists tk'. split; [exact E|discriminate].
Qed.

Lemma multi_single_spec repr equivs tbl kd cat b l1 ks l2 ns names rows :
  WF b -> dget str_eqb cat tbl = Some (l1 ++ ks :: l2) ->
  (forall s, In s (l1 ++ l2) -> exists k, In k s /\ is_away equivs b k) ->
  ks <> [] -> Forall2 (goes_by equivs b) ks ns -> NoDup ns -> is_table b names rows ->
  (forall n, In n ns -> In (lower n) names) -> (forall k, In k ks -> exists x, dget str_eqb k kd = Some x) ->
  let Q := row_has repr kd b ks ns in
  exists s, multi_semantic repr equivs tbl kd cat b = Ret s /\ (l2 = [] -> s_key s = ns) /\
    (forall i, only Q i -> Forall2 (fun n v => cell b n i v) names (s_values s) /\
       forall n v, dget str_eqb n (s_atts s) = Some v <-> attribute n /\ In n names /\ cell b n i v) /\
    ((~ exists i, only Q i) -> s_values s = [] /\ s_atts s = []).
Proof.
  intros Hwf Htbl Haway Hne Hgo Hnd Ht Hns Hkd Q.
  pose proof (true_keys_named _ _ _ _ Hgo) as Etk.
  assert (length ks = length ns) as Hlen by (clear - Hgo; induction Hgo; cbn [length]; congruence).
  destruct (true_keydict_named kd ks ns Hlen Hnd Hkd [] (fun _ _ => eq_refl)) as (d & Ed & Hd).
  assert (d <> []) as Hdne.
  { destruct ks as [|k ks'], ns as [|n ns']; try discriminate; [contradiction|]. destruct (Hkd k (or_introl eq_refl)) as (x & Hx).
    intros ->. apply (proj2 (Hd n x)). right. exists k. split; [now left|exact Hx]. }
  assert (forall n x, In (n, x) d -> In (lower n) names) as Hdn.
  { intros n x H. apply Hd in H. destruct H as [[]|(k & H & _)]. apply in_combine_r in H. now apply Hns. }
  pose proof (compound_spec repr b d names rows Hwf Hdne Ht Hdn) as H. cbv zeta in H. destruct H as [H1 H2].
  set (Q' := fun i => forall k x, In (k, x) d -> row_matches b k (key_holds repr x) i) in *.
  assert (forall i, Q i <-> Q' i) as HQ.
  { intros i. unfold Q, row_has, Q'. split.
    - intros H n x Hi. apply Hd in Hi. destruct Hi as [[]|(k & Ha & Hb)]. exact (H k n x Ha Hb).
    - intros H k n x Ha Hb. apply H. apply Hd. right. now exists k. }
  assert (forall i, only Q i <-> only Q' i) as Ho.
  { intros i. unfold only. rewrite HQ. split; intros [Ha Hb]; (split; [exact Ha|]); intros j Hj; apply Hb; now apply HQ. }
  unfold multi_semantic. rewrite Htbl.
  assert (exists s0 r0, l1 ++ ks :: l2 = s0 :: r0) as (s0 & r0 & Es) by (destruct l1; cbn [app]; eauto).
  rewrite Es, <- Es. clear s0 r0 Es.
  destruct (away_gather repr equivs kd b l1 (fun s Hs => Haway s (in_or_app _ _ _ (or_introl Hs))) (ks :: l2) ([], []) []) as (tk & -> & _).
  cbn [multi_gather]. rewrite Etk, <- Hlen, Nat.eqb_refl, Ed. cbn [obind].
  assert (forall m, exists tk', multi_gather repr equivs kd l2 b m ns = Ret (m, tk') /\ (l2 = [] -> tk' = ns)) as Hrest.
  { intros m. destruct (away_gather repr equivs kd b l2 (fun s Hs => Haway s (in_or_app _ _ _ (or_intror Hs))) [] m ns) as (tk' & E & H).
    rewrite app_nil_r in E. exists tk'. split; [exact E|exact H]. }
  destruct (get_compound_packet repr d b) as [p|e] eqn:E.
  - destruct (Hrest (merge_packet ([], []) p)) as (tk' & -> & Htk).
    cbn [obind fst snd]. eexists. split; [reflexivity|]. cbn [s_key s_values s_atts]. split; [exact Htk|].
    destruct (proj1 (H1 p) eq_refl) as (i & Hi & Hr). split.
    + intros j Hj. apply Ho in Hj. assert (j = i) by (apply (proj2 Hi); exact (proj1 Hj)). subst j.
      unfold merge_packet at 1. cbn [fst]. rewrite app_nil_l. split; [now apply row_values|].
      intros n v. rewrite (merge_atts ([], []) p (row_functional b names i p Hr) n v). cbn [snd dget].
      assert (In (n, v) p <-> In n names /\ cell b n i v) as ->.
      { destruct Hr as [Hm Hc]. split.
        - intros Hp. split; [rewrite <- Hm; apply in_map_iff; now exists (n, v)|now apply Hc].
        - intros [Hn Hv]. rewrite <- Hm in Hn. apply in_map_iff in Hn. destruct Hn as ([n' w] & En & Hp). cbn [fst] in En. subst n'.
          now rewrite (cell_fun _ _ _ _ _ Hv (Hc n w Hp)). }
      intuition congruence.
    + intros Hno. exfalso. apply Hno. exists i. now apply Ho.
  - assert (~ exists i, only Q' i) as Hno.
    { intros [i Hi]. destruct d as [|[k1 x1] d']; [contradiction|]. pose proof (Hdn k1 x1 (or_introl eq_refl)) as Hk1.
      assert (get_loop_names (lower k1) b = Ret names) as Hl by (destruct Ht as [_ Ht']; now destruct (Ht' _ Hk1)).
      destruct (packets_spec b (lower k1) names rows Hwf Hl Ht) as (ps & Ep & Hlps & Hrow).
      assert (i < length ps) as Hlt.
      { rewrite Hlps. destruct Hi as [Hq _].
        destruct (Hq k1 x1 (or_introl eq_refl)) as (v & Hc & _).
        rewrite (cell_lower b names rows k1 i v Ht Hk1) in Hc. eapply cell_bound; eauto. }
      apply nth_error_Some in Hlt. destruct (nth_error ps i) as [q|] eqn:Eq; [|contradiction].
      assert (Raise e = Ret q) as X; [|discriminate X]. apply H1. exists i. split; [exact Hi|]. exact (Hrow i q Eq). }
    assert (e = ValueErr) as -> by (pose proof (H2 Hno); congruence).
    destruct (Hrest ([], [])) as (tk' & -> & Htk).
    cbn [obind fst snd]. eexists. split; [reflexivity|]. cbn [s_key s_values s_atts]. split; [exact Htk|]. split.
    + intros i Hi. exfalso. apply Hno. exists i. now apply Ho.
    + intros _. split; reflexivity.
Qed.

Lemma true_keydict_missing kd ks k : In k ks -> dget str_eqb k kd = None -> forall ts acc, length ts = length ks ->
  true_keydict kd ts ks acc = Raise KeyErr.
Proof.
  intros Hin Hk. induction ks as [|k' ks IH]; [destruct Hin|]. intros [|t ts] acc Hl; [discriminate|]. cbn [true_keydict].
  destruct (dget str_eqb k' kd) as [x|] eqn:E; [|reflexivity].
  destruct Hin as [->|Hin]; [congruence|]. apply IH; [exact Hin|]. cbn [length] in Hl. congruence.
Qed.

Lemma true_keys_length equivs b ks : (forall k, In k ks -> has_key k b = true) -> length (true_keys equivs b ks) = length ks.
Proof.
  induction ks as [|k ks IH]; intros H; [reflexivity|]. unfold true_keys. cbn [flat_map]. rewrite app_length.
  fold (true_keys equivs b ks). rewrite IH by (intros x Hx; apply H; now right).
  destruct (find_key equivs b k) as [n|] eqn:E; [reflexivity|]. exfalso. unfold find_key in E.
  pose proof (find_none _ _ E k) as F. cbn beta in F. rewrite (H k (or_introl eq_refl)) in F.
  assert (true = false) as X; [|discriminate X]. apply F. apply in_app_iff. right. now left.
Qed.

Lemma multi_gather_fails repr equivs kd b ks k : In k ks -> dget str_eqb k kd = None -> (forall x, In x ks -> has_key x b = true) ->
  forall sets, In ks sets -> forall m tk, exists e, multi_gather repr equivs kd sets b m tk = Raise e.
Proof.
  intros Hk Hkd Hhas. induction sets as [|s sets IH]; [intros []|]. intros Hin m tk. cbn [multi_gather].
  destruct Hin as [->|Hin].
  - rewrite (true_keys_length equivs b ks Hhas), Nat.eqb_refl.
    rewrite (true_keydict_missing kd ks k Hk Hkd) by (now apply true_keys_length). cbn [obind]. eauto.
  - destruct (Nat.eqb _ _); [|now apply IH]. destruct (true_keydict _ _ _ _) as [d|e]; cbn [obind]; [|eauto].
    destruct (get_compound_packet repr d b) as [p|[]]; eauto.
Qed.

Lemma multi_child_fails repr equivs tbl kd cat b sets ks k : dget str_eqb cat tbl = Some sets -> In ks sets -> In k ks ->
  dget str_eqb k kd = None -> (forall x, In x ks -> has_key x b = true) ->
  exists e, multi_semantic repr equivs tbl kd cat b = Raise e.
Proof.
  intros Ht Hs Hk Hkd Hhas. unfold multi_semantic. rewrite Ht. destruct sets as [|s sets]; [destruct Hs|].
  destruct (multi_gather_fails repr equivs kd b ks k Hk Hkd Hhas (s :: sets) Hs ([], []) []) as [e ->]. cbn [obind]. eauto.
Qed.
