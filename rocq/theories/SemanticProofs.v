(** Proofs about packets that join the rows of several loops. *)
From Coq Require Import String Ascii List NArith PeanoNat Bool Lia.
From Verif Require Import PyBase StarBlockModel LoopModel ValidateModel TreeModel KeyModel StarBlockSpec LoopSpec PyFacts StarBlockProofs LoopProofs LoopProofs2 SemanticModel SemanticSpec.
Import ListNotations.
Open Scope list_scope.
Open Scope nat_scope.

Lemma public_spec n : public n = true <-> attribute n.
Proof.
  unfold public, attribute. destruct n as [|c [|e r]].
  - split; [discriminate|]. intros (c & r & E & _). discriminate.
  - split; [discriminate|]. intros (c' & r & E & _). discriminate.
  - rewrite andb_true_iff, N.eqb_eq, negb_true_iff, N.eqb_neq. split.
    + intros [-> H]. now exists e, r.
    + intros (c' & r' & E & H). injection E as -> -> _. auto.
Qed.

Lemma usable_spec v : is_set v -> usable v = true.
Proof.
  intros [Hn Hl]. assert (forall l, l <> [] -> ~ In VNone l ->
    negb (existsb (fun x => py_eq x VNone) l || match l with [] => true | _ => false end) = true) as H.
  { intros l Hne Hin. rewrite negb_true_iff, orb_false_iff. split; [|now destruct l].
    apply not_true_iff_false. intros E. apply existsb_exists in E. destruct E as (x & Hx & E).
    apply py_eq_spec in E. inversion E; subst; try (apply Hin; exact Hx).
    match goal with H : VNone = VList _ \/ VNone = VSL _ |- _ => destruct H; discriminate end. }
  destruct v; cbn [usable]; try reflexivity; try (now destruct Hn).
  - apply H; apply (Hl l); auto.
  - apply H; apply (Hl l); auto.
Qed.

Definition functional (p : packet) : Prop := forall n v w, In (n, v) p -> In (n, w) p -> v = w.

Lemma fold_dset (p : packet) : functional p -> forall d n,
  (forall v, In (n, v) p -> dget str_eqb n (fold_left (fun d nv => dset str_eqb (fst nv) (snd nv) d) p d) = Some v) /\
  ((forall v, ~ In (n, v) p) -> dget str_eqb n (fold_left (fun d nv => dset str_eqb (fst nv) (snd nv) d) p d) = dget str_eqb n d).
Proof.
  induction p as [|[m w] p IH]; intros Hf d n; cbn [fold_left fst snd].
  - split; [intros v []|reflexivity].
  - assert (functional p) as Hf' by (intros x a c Ha Hc; apply (Hf x a c); now right).
    destruct (IH Hf' (dset str_eqb m w d) n) as [I1 I2]. split.
    + intros v [E|Hv]; [|auto]. injection E as -> ->.
      destruct (in_dec (list_eq_dec N.eq_dec) n (map fst p)) as [Hin|Hno].
      * apply in_map_iff in Hin. destruct Hin as ([n' v'] & E & Hin). cbn [fst] in E. subst n'.
        rewrite (I1 v' Hin). f_equal. apply (Hf n v' v); [now right|now left].
      * rewrite I2. { apply (dget_dset_eq str_eqb str_eqb_spec). }
        intros v' Hv. apply Hno. apply in_map_iff. now exists (n, v').
    + intros Hno. rewrite I2 by (intros v Hv; apply (Hno v); now right).
      apply (dget_dset_neq str_eqb str_eqb_spec). intros E. apply (Hno w). left. now rewrite E.
Qed.

Lemma merge_atts m p : functional p -> forall n v,
  dget str_eqb n (snd (merge_packet m p)) = Some v <->
  (attribute n /\ In (n, v) p) \/ (~ (attribute n /\ exists w, In (n, w) p) /\ dget str_eqb n (snd m) = Some v).
Proof.
  intros Hf n v. unfold merge_packet. cbn [snd].
  set (q := filter (fun nv => public (fst nv)) p).
  assert (functional q) as Hq by (intros x a c Ha Hc; apply filter_In in Ha, Hc; apply (Hf x a c); tauto).
  destruct (fold_dset q Hq (snd m) n) as [F1 F2].
  assert (forall w, In (n, w) q <-> attribute n /\ In (n, w) p) as Hin.
  { intros w. unfold q. rewrite filter_In. cbn [fst]. rewrite public_spec. tauto. }
  destruct (in_dec (list_eq_dec N.eq_dec) n (map fst q)) as [Hi|Hno].
  - apply in_map_iff in Hi. destruct Hi as ([n' w] & E & Hi). cbn [fst] in E. subst n'.
    rewrite (F1 w Hi). apply Hin in Hi. destruct Hi as [Ha Hp]. split.
    + intros E. injection E as <-. left. auto.
    + intros [[_ H]|[H _]]; [f_equal; eapply Hf; eauto|]. exfalso. apply H. split; [exact Ha|]. now exists w.
  - assert (forall w, ~ In (n, w) q) as Hn by (intros w Hw; apply Hno; apply in_map_iff; now exists (n, w)).
    rewrite (F2 Hn). split.
    + intros E. right. split; [|exact E]. intros [Ha [w Hw]]. apply (Hn w). apply Hin. auto.
    + intros [H|[_ H]]; [|exact H]. exfalso. apply (Hn v). apply Hin. exact H.
Qed.

Section Blocks.
Context (b : block) (lc : bool) (kv : value).
Hypothesis Hwf : WF b.

(** One key: either its row, or nothing. *)
Lemma one_key k : ready b lc kv k ->
  (exists names i p, chosen b lc kv k names i /\ is_row b names i p /\ get_keyed_packet k kv lc b = Ret p) \/
  ((~ exists names i, chosen b lc kv k names i) /\
   (get_keyed_packet k kv lc b = Raise ValueErr \/
    (get_keyed_packet k kv lc b = Raise KeyErr /\ (get_item k b = Raise KeyErr \/ exists v, get_item k b = Ret v /\ usable v = true)))).
Proof.
  intros [[Hl Hi]|(names & rows & Hl & Ht & Htext)].
  - right. split.
    + intros (names & i & [H _]). congruence.
    + right. split; [|destruct Hi as [Hi|(v & Hi & Hv)]; [now left|right; exists v; split; [exact Hi|now apply usable_spec]]].
      unfold get_keyed_packet, loop_packets, loop_names. rewrite Hl. reflexivity.
  - assert (let Q := row_matches b k (key_eq lc kv) in
      (forall p, get_keyed_packet k kv lc b = Ret p <-> exists i, only Q i /\ is_row b names i p) /\
      ((~ exists i, only Q i) -> get_keyed_packet k kv lc b = Raise ValueErr)) as [H1 H2].
    { destruct lc.
      - destruct (Htext eq_refl) as [[s ->] Hc]. exact (keyed_nocase_spec b k names rows s Hwf Hl Ht Hc).
      - exact (keyed_spec b k names rows kv Hwf Hl Ht). }
    destruct (get_keyed_packet k kv lc b) as [p|e] eqn:E.
    + destruct (proj1 (H1 p) eq_refl) as (i & Ho & Hr). left. exists names, i, p. split; [split; [exact Hl|exact Ho]|]. auto.
    + right. assert (~ exists i, only (row_matches b k (key_eq lc kv)) i) as Hno.
      { intros [i Ho]. destruct (packets_spec b k names rows Hwf Hl Ht) as (ps & Ep & Hlen & Hrow).
        assert (i < length ps) as Hi.
        { rewrite Hlen. destruct Ho as [(v & Hc & _) _].
          rewrite (cell_lower b names rows k i v Ht (table_key _ _ _ _ Ht Hl Hwf)) in Hc. eapply cell_bound; eauto.
          exact (table_key _ _ _ _ Ht Hl Hwf). }
        apply nth_error_Some in Hi. destruct (nth_error ps i) as [q|] eqn:Eq; [|contradiction].
        assert (Raise e = Ret q) as X; [|discriminate X].
        apply H1. exists i. split; [exact Ho|]. exact (Hrow i q Eq). }
      split.
      * intros (names' & i & [_ Ho]). apply Hno. now exists i.
      * left. exact (H2 Hno).
Qed.

Lemma row_values names i p : is_row b names i p -> Forall2 (fun n v => cell b n i v) names (map snd p).
Proof.
  intros [<- H]. induction p as [|[n v] p IH]; cbn [map fst snd]; [constructor|].
  constructor; [apply H; now left|]. apply IH. intros m w Hm. apply H. now right.
Qed.
Lemma row_functional names i p : is_row b names i p -> functional p.
Proof. intros [_ H] n v w Hv Hw. eapply cell_fun; [apply H, Hv|apply H, Hw]. Qed.
Lemma row_supplies k names i p : chosen b lc kv k names i -> is_row b names i p ->
  forall n v, In (n, v) p <-> supplies b lc kv k n v.
Proof.
  intros Hc Hr n v. split.
  - intros Hi. exists names, i. split; [exact Hc|]. destruct Hr as [<- H]. split; [|now apply H].
    apply in_map_iff. now exists (n, v).
  - intros (names' & j & [Hl Ho] & Hn & Hv). destruct Hc as [Hl' Ho'].
    assert (names' = names) by congruence. subst names'.
    assert (j = i) by (apply (proj2 Ho'); exact (proj1 Ho)). subst j.
    destruct Hr as [Hm H]. rewrite <- Hm in Hn. apply in_map_iff in Hn. destruct Hn as ([n' w] & E & Hi). cbn [fst] in E. subst n'.
    now rewrite (cell_fun _ _ _ _ _ Hv (H n w Hi)).
Qed.

Lemma gather_spec keys : Forall (ready b lc kv) keys -> forall last m, exists m' vals,
  gather keys kv lc b last m = Ret m' /\ rows_of b lc kv keys vals /\ fst m' = fst m ++ vals /\
  forall n v, dget str_eqb n (snd m') = Some v <->
    (attribute n /\ supplied_last b lc kv keys n v) \/
    (~ (attribute n /\ exists k w, In k keys /\ supplies b lc kv k n w) /\ dget str_eqb n (snd m) = Some v).
Proof.
  induction 1 as [|k keys Hk _ IH]; intros last m.
  - exists m, []. cbn [gather]. split; [reflexivity|]. split; [constructor|]. split; [now rewrite app_nil_r|].
    intros n v. split.
    + intros E. right. split; [|exact E]. intros (_ & k & w & [] & _).
    + intros [(_ & l1 & k & l2 & E & _)|[_ E]]; [|exact E]. destruct l1; discriminate.
  - destruct (one_key k Hk) as [(names & i & p & Hc & Hr & E)|[Hno E]].
    + destruct (IH (Some p) (merge_packet m p)) as (m' & vals & Eg & Hv & Ef & Ha).
      exists m', (map snd p ++ vals). cbn [gather]. rewrite E. split; [exact Eg|].
      split; [exact (rows_take b lc kv k keys vals names i (map snd p) Hc (row_values _ _ _ Hr) Hv)|].
      split; [rewrite Ef; unfold merge_packet; cbn [fst]; now rewrite app_assoc|].
      intros n v. rewrite Ha, (merge_atts m p (row_functional _ _ _ Hr) n v).
      pose proof (row_supplies k names i p Hc Hr n) as Hs. split.
      * intros [[Hat (l1 & k' & l2 & -> & Hs1 & Hs2)]|[Hnot [[Hat Hin]|[Hnp Ed]]]].
        -- left. split; [exact Hat|]. exists (k :: l1), k', l2. auto.
        -- left. split; [exact Hat|]. exists [], k, keys. split; [reflexivity|]. split; [now apply Hs|].
           intros k' w Hk' Hsw. apply Hnot. split; [exact Hat|]. now exists k', w.
        -- right. split; [|exact Ed]. intros (Hat & k' & w & [<-|Hk'] & Hsw).
           ++ apply Hnp. split; [exact Hat|]. exists w. now apply Hs.
           ++ apply Hnot. split; [exact Hat|]. now exists k', w.
      * intros [[Hat (l1 & k' & l2 & El & Hs1 & Hs2)]|[Hnot Ed]].
        -- destruct l1 as [|x l1]; cbn [app] in El; injection El as -> ->.
           ++ right. split; [|left; split; [exact Hat|now apply Hs]].
              intros (_ & k2 & w & Hk2 & Hw). exact (Hs2 k2 w Hk2 Hw).
           ++ left. split; [exact Hat|]. exists l1, k', l2. auto.
        -- right. split; [|right; split; [|exact Ed]].
           ++ intros (Hat & k' & w & Hk' & Hw). apply Hnot. split; [exact Hat|]. exists k', w. split; [now right|exact Hw].
           ++ intros (Hat & w & Hw). apply Hnot. split; [exact Hat|]. exists k, w. split; [now left|now apply Hs].
    + destruct (IH last m) as (m' & vals & Eg & Hv & Ef & Ha).
      assert (forall n v, ~ supplies b lc kv k n v) as Hns.
      { intros n v (names & i & Hc & _). apply Hno. now exists names, i. }
      exists m', vals. cbn [gather]. split.
      { destruct E as [->|[-> [->|(v & -> & ->)]]]; exact Eg. }
      split; [now apply rows_skip|]. split; [exact Ef|]. intros n v. rewrite Ha. split.
      * intros [[Hat (l1 & k' & l2 & -> & Hs)]|[Hnot Ed]].
        -- left. split; [exact Hat|]. exists (k :: l1), k', l2. auto.
        -- right. split; [|exact Ed]. intros (Hat & k' & w & [<-|Hk'] & Hw); [exact (Hns n w Hw)|].
           apply Hnot. split; [exact Hat|]. now exists k', w.
      * intros [[Hat (l1 & k' & l2 & El & Hs1 & Hs2)]|[Hnot Ed]].
        -- destruct l1 as [|x l1]; cbn [app] in El; injection El as -> ->; [exfalso; exact (Hns n v Hs1)|].
           left. split; [exact Hat|]. exists l1, k', l2. auto.
        -- right. split; [|exact Ed]. intros (Hat & k' & w & Hk' & Hw). apply Hnot. split; [exact Hat|]. exists k', w. split; [now right|exact Hw].
Qed.

Lemma supplied_exists keys n : Forall (ready b lc kv) keys ->
  (exists v, supplied_last b lc kv keys n v) <-> exists k w, In k keys /\ supplies b lc kv k n w.
Proof.
  intros Hr. split.
  - intros (v & l1 & k & l2 & -> & Hs & _). exists k, v. split; [apply in_elt|exact Hs].
  - intros Hex. induction Hr as [|k keys Hk Hr IH].
    + destruct Hex as (k & w & [] & _).
    + destruct (one_key k Hk) as [(names & i & p & Hc & Hrow & _)|[Hno _]].
      * assert ((exists k' w, In k' keys /\ supplies b lc kv k' n w) \/ ~ (exists k' w, In k' keys /\ supplies b lc kv k' n w)) as [H|H].
        { clear - Hr Hwf. induction Hr as [|k keys Hk Hr IH].
          - right. intros (k & w & [] & _).
          - destruct IH as [(k' & w & Hi & Hs)|IH]; [left; exists k', w; split; [now right|exact Hs]|].
            destruct (one_key k Hk) as [(names & i & p & Hc & Hrow & _)|[Hno _]].
            + destruct (in_dec (list_eq_dec N.eq_dec) n (map fst p)) as [Hi|Hni].
              * apply in_map_iff in Hi. destruct Hi as ([n' w] & E & Hi). cbn [fst] in E. subst n'.
                left. exists k, w. split; [now left|]. now apply (row_supplies k names i p Hc Hrow n w).
              * right. intros (k' & w & [<-|Hk'] & Hs); [|apply IH; now exists k', w].
                apply Hni. apply in_map_iff. exists (n, w). split; [reflexivity|]. now apply (row_supplies k names i p Hc Hrow n w).
            + right. intros (k' & w & [<-|Hk'] & Hs); [|apply IH; now exists k', w].
              destruct Hs as (names & i & Hc & _). apply Hno. now exists names, i. }
        -- destruct (IH H) as (v & l1 & k' & l2 & -> & Hs). exists v, (k :: l1), k', l2. auto.
        -- destruct Hex as (k' & w & [<-|Hk'] & Hs); [|exfalso; apply H; now exists k', w].
           exists w, [], k, keys. split; [reflexivity|]. split; [exact Hs|].
           intros k2 w2 Hk2 Hs2. apply H. now exists k2, w2.
      * destruct Hex as (k' & w & [<-|Hk'] & Hs).
        -- destruct Hs as (names & i & Hc & _). exfalso. apply Hno. now exists names, i.
        -- destruct IH as (v & l1 & k2 & l2 & -> & Hs2); [now exists k', w|]. exists v, (k :: l1), k2, l2. auto.
Qed.

Lemma find_first {A} (f : A -> bool) l x : find f l = Some x ->
  exists l1 l2, l = l1 ++ x :: l2 /\ f x = true /\ forall y, In y l1 -> f y = false.
Proof.
  induction l as [|a l IH]; cbn [find]; [discriminate|]. destruct (f a) eqn:E.
  - intros H. injection H as ->. exists [], l. split; [reflexivity|]. split; [exact E|]. intros y [].
  - intros H. destruct (IH H) as (l1 & l2 & -> & Hx & Hl). exists (a :: l1), l2. split; [reflexivity|]. split; [exact Hx|].
    intros y [<-|Hy]; auto.
Qed.

Lemma first_names_ok sets keys : Forall2 (fun ks k => exists r, ks = VStr k :: r) sets keys -> first_names sets = Ret keys.
Proof. induction 1 as [|ks k sets keys [r ->] _ IH]; [reflexivity|]. cbn [first_names first_name obind]. now rewrite IH. Qed.

Lemma caseless_ok d k t ty : def_of d k = Ret t -> tget (u "_type.contents") t = Some (VStr ty) ->
  (ignores_case ty <-> lc = true) -> caseless d k = Ret lc.
Proof.
  intros Hd Ht Hlc. unfold caseless. rewrite Hd. cbn [obind]. rewrite Ht. f_equal.
  assert (existsb (fun ty0 => veq_text (Some (VStr ty)) ty0) caseless_types = true <-> lc = true) as H.
  { rewrite <- Hlc. unfold caseless_types, ignores_case. cbn [existsb veq_text]. rewrite !orb_true_iff.
    destruct (str_eqb_spec ty (u "Code")), (str_eqb_spec ty (u "Tag")), (str_eqb_spec ty (u "Name")); intuition congruence. }
  destruct (existsb _ _), lc; intuition congruence.
Qed.

Lemma keyed_semantic_spec d tbl cat sets k0 keys t ty :
  dget str_eqb cat tbl = Some sets -> Forall2 (fun ks k => exists r, ks = VStr k :: r) sets (k0 :: keys) ->
  def_of d k0 = Ret t -> tget (u "_type.contents") t = Some (VStr ty) -> (ignores_case ty <-> lc = true) ->
  Forall (ready b lc kv) (k0 :: keys) ->
  ((~ exists k, In k (k0 :: keys) /\ key_known b lc kv (k0 :: keys) k) -> keyed_semantic d tbl kv cat b = Raise ValueErr) /\
  ((exists k, In k (k0 :: keys) /\ key_known b lc kv (k0 :: keys) k) ->
   exists p, keyed_semantic d tbl kv cat b = Ret p /\ rows_of b lc kv (k0 :: keys) (s_values p) /\
     (forall n v, dget str_eqb n (s_atts p) = Some v <-> attribute n /\ supplied_last b lc kv (k0 :: keys) n v) /\
     exists l1 k l2, k0 :: keys = l1 ++ k :: l2 /\ s_key p = [k] /\ key_known b lc kv (k0 :: keys) k /\
       forall k', In k' l1 -> ~ key_known b lc kv (k0 :: keys) k').
Proof.
  intros Htbl Hsets Hd Ht Hlc Hr. unfold keyed_semantic. rewrite Htbl, (first_names_ok _ _ Hsets). cbn [obind].
  rewrite (caseless_ok d k0 t ty Hd Ht Hlc). cbn [obind].
  destruct (gather_spec (k0 :: keys) Hr None ([], [])) as (m & vals & -> & Hv & Ef & Ha). cbn [obind].
  cbn [fst snd] in Ef, Ha. rewrite app_nil_l in Ef. subst vals.
  assert (forall n v, dget str_eqb n (snd m) = Some v <-> attribute n /\ supplied_last b lc kv (k0 :: keys) n v) as Ha'.
  { intros n v. rewrite Ha. cbn [dget]. intuition congruence. }
  assert (forall k, has_attr k m = true <-> key_known b lc kv (k0 :: keys) k) as Hk.
  { intros k. unfold has_attr, dmem, key_known. rewrite <- (supplied_exists (k0 :: keys) (lower k) Hr).
    destruct (dget str_eqb (lower k) (snd m)) as [v|] eqn:E.
    - split; [intros _|reflexivity]. apply Ha' in E. destruct E as [H1 H2]. split; [exact H1|now exists v].
    - split; [discriminate|]. intros (H1 & v & H2). assert (dget str_eqb (lower k) (snd m) = Some v) by (apply Ha'; auto). congruence. }
  destruct (find (fun k => has_attr k m) (k0 :: keys)) as [k|] eqn:Efind.
  - destruct (find_first _ _ _ Efind) as (l1 & l2 & El & Hx & Hl). split.
    + intros Hno. exfalso. apply Hno. exists k. split; [rewrite El; apply in_elt|now apply Hk].
    + intros _. exists (mkSemantic (fst m) (snd m) [k]). cbn [s_values s_atts s_key]. split; [reflexivity|]. split; [exact Hv|].
      split; [exact Ha'|]. exists l1, k, l2. split; [exact El|]. split; [reflexivity|]. split; [now apply Hk|].
      intros k' Hk' Hkn. apply Hk in Hkn. rewrite (Hl k' Hk') in Hkn. discriminate.
  - split; [reflexivity|]. intros (k & Hin & Hkn). apply Hk in Hkn. pose proof (find_none _ _ Efind k Hin) as H. cbn beta in H. congruence.
Qed.
End Blocks.
