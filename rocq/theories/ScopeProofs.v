From Coq Require Import String Ascii List NArith PeanoNat Bool Lia.
From Verif Require Import PyBase PyFacts StarBlockModel StarBlockSpec StarBlockProofs LoopModel LoopSpec LoopProofs LoopProofs2 ValidateModel BlockCheckModel TreeModel TreeSpec TreeProofs TreeProofs2 ScopeModel ScopeSpec.
Import ListNotations.
Open Scope nat_scope.

Lemma map_str_inj (a b : list str) : map VStr a = map VStr b -> a = b.
Proof. revert b. induction a as [|x a IH]; intros [|y b] H; try discriminate; [reflexivity|]. injection H as -> H. f_equal. now apply IH. Qed.
Lemma listing_fun v l l' : listing v l -> listing v l' -> l = l'.
Proof. intros [->| ->] [H|H]; try discriminate H; injection H as H; now apply map_str_inj. Qed.
Lemma cell_fun b n i v w : cell b n i v -> cell b n i w -> v = w.
Proof. intros (l & E & H) (l' & E' & H'). congruence. Qed.
Lemma demand_fun b i s k l s' k' l' : demand b i s k l -> demand b i s' k' l' -> s = s' /\ k = k' /\ l = l'.
Proof.
  intros (v & w & C & L & C' & L') (v1 & w1 & C1 & L1 & C1' & L1'). rewrite <- (cell_fun _ _ _ _ _ C C1) in L1. rewrite <- (cell_fun _ _ _ _ _ C' C1') in L1'.
  pose proof (listing_fun _ _ _ L L1) as E. injection E as -> ->. pose proof (listing_fun _ _ _ L' L1'). auto.
Qed.
Lemma texts_map l : texts (map VStr l) = Ret l.
Proof. induction l as [|x l IH]; [reflexivity|]. unfold texts in *. cbn [map fold_right]. rewrite IH. reflexivity. Qed.

Section Rows.
Context (n : nat) (d : defs) (height : str -> nat) (b : block).
Context (W : well_formed d) (A : acyclic d height) (P : 0 < n).
(** The table after the first [m] rows. *)
Definition so_far (m : nat) (k : str) (sc : scopes) : Prop :=
  (forall s, (exists names, dget str_eqb s sc = Some names) <-> exists i l, i < m /\ demand b i s k l)
  /\ forall s names, dget str_eqb s sc = Some names -> exists i l, i < m /\ demand b i s k l /\ (forall j l', i < j < m -> ~ demand b j s k l') /\ forall a, In a names <-> exists c, In c l /\ stands_for d c a.
Lemma so_far_other m k sc s k0 l : so_far m k sc -> demand b m s k0 l -> k0 <> k -> so_far (S m) k sc.
Proof.
  intros (H1 & H2) D N. split.
  - intros s0. rewrite H1. split; intros (i & l0 & L & D0); exists i, l0; (split; [|exact D0]); [lia|]. destruct (Nat.eq_dec i m) as [->|]; [|lia]. destruct (demand_fun _ _ _ _ _ _ _ _ D D0) as (_ & E & _). congruence.
  - intros s0 names G. destruct (H2 s0 names G) as (i & l0 & L & D0 & F & X). exists i, l0. split; [lia|]. split; [exact D0|]. split; [|exact X]. intros j l' Lj Dj. destruct (Nat.eq_dec j m) as [->|]; [|apply (F j l'); [lia|exact Dj]].
    destruct (demand_fun _ _ _ _ _ _ _ _ D Dj) as (_ & E & _). congruence.
Qed.
Lemma so_far_same m k sc s l found : so_far m k sc -> demand b m s k l -> (forall a, In a found <-> exists c, In c l /\ stands_for d c a) -> so_far (S m) k (dset str_eqb s found sc).
Proof.
  intros (H1 & H2) D X. split.
  - intros s0. destruct (str_eqb_spec s0 s) as [->|N].
    + rewrite (dget_dset_eq str_eqb str_eqb_spec). split; [intros _; exists m, l; split; [lia|exact D]|intros _; now exists found].
    + rewrite (dget_dset_neq str_eqb str_eqb_spec) by congruence. rewrite H1. split; intros (i & l0 & L & D0); exists i, l0; (split; [|exact D0]); [lia|]. destruct (Nat.eq_dec i m) as [->|]; [|lia]. destruct (demand_fun _ _ _ _ _ _ _ _ D D0) as (E & _). congruence.
  - intros s0 names. destruct (str_eqb_spec s0 s) as [->|N].
    + rewrite (dget_dset_eq str_eqb str_eqb_spec). intros E. injection E as <-. exists m, l. split; [lia|]. split; [exact D|]. split; [intros j l' Lj; lia|exact X].
    + rewrite (dget_dset_neq str_eqb str_eqb_spec) by congruence. intros G. destruct (H2 s0 names G) as (i & l0 & L & D0 & F & X'). exists i, l0. split; [lia|]. split; [exact D0|]. split; [|exact X'].
      intros j l' Lj Dj. destruct (Nat.eq_dec j m) as [->|]; [|apply (F j l'); [lia|exact Dj]]. destruct (demand_fun _ _ _ _ _ _ _ _ D Dj) as (E & _). congruence.
Qed.
(** A row with its values. *)
Definition row_at (m : nat) (p : packet) : Prop :=
  exists s k l v w, p_attr valid_application p = Ret v /\ p_attr valid_attributes p = Ret w /\ listing v [s; k] /\ listing w l /\ demand b m s k l /\ forall c, In c l -> category d (lower c) -> S (height (lower c)) < n.
Lemma enter_ok s k l v w sc : listing v [s; k] -> listing w l -> (forall c, In c l -> category d (lower c) -> S (height (lower c)) < n) ->
  exists found, enter n d v w sc = Ret (dset str_eqb s found sc) /\ forall a, In a found <-> exists c, In c l /\ stands_for d c a.
Proof.
  intros Lv Lw Hc. destruct (expand_total n d l height W A Hc P) as (found & E). exists found. split; [|now apply (expand_ok n)]. unfold enter.
  assert (ValidateModel.iterate w = Ret (map VStr l)) as -> by (destruct Lw as [->| ->]; reflexivity). cbn [obind]. rewrite texts_map. cbn [obind]. rewrite E. cbn [obind]. destruct Lv as [->| ->]; reflexivity.
Qed.
Lemma parse_rows_ok ps : forall m mand naughty, (forall j p, nth_error ps j = Some p -> row_at (m + j) p) -> so_far m (u "Mandatory") mand -> so_far m (u "Prohibited") naughty ->
  exists mand' naughty', parse_rows n d ps mand naughty = Ret (mand', naughty') /\ so_far (m + length ps) (u "Mandatory") mand' /\ so_far (m + length ps) (u "Prohibited") naughty'.
Proof.
  induction ps as [|p ps IH]; intros m mand naughty R S1 S2; [exists mand, naughty; cbn [length]; rewrite Nat.add_0_r; auto|].
  destruct (R 0 p eq_refl) as (s & k & l & v & w & Pv & Pw & Lv & Lw & D & Hc). rewrite Nat.add_0_r in D. cbn [parse_rows length]. rewrite Pv, Pw. cbn [obind].
  assert (vindex v 1 = Ret (VStr k)) as -> by (destruct Lv as [->| ->]; reflexivity). cbn [obind]. unfold veq_text.
  assert (forall j q, nth_error ps j = Some q -> row_at (S m + j) q) as R' by (intros j q Hq; replace (S m + j) with (m + S j) by lia; now apply R). replace (m + S (length ps)) with (S m + length ps) by lia.
  destruct (str_eqb_spec k (u "Mandatory")) as [Ek|N1].
  - rewrite Ek in *. destruct (enter_ok s (u "Mandatory") l v w mand Lv Lw Hc) as (found & E & X). rewrite E. cbn [obind]. apply IH; [exact R'|now apply (so_far_same m (u "Mandatory") mand s l found)|]. apply (so_far_other m _ _ s (u "Mandatory") l S2 D). discriminate.
  - destruct (str_eqb_spec k (u "Prohibited")) as [Ek|N2].
    + rewrite Ek in *. destruct (enter_ok s (u "Prohibited") l v w naughty Lv Lw Hc) as (found & E & X). rewrite E. cbn [obind]. apply IH; [exact R'| |now apply (so_far_same m (u "Prohibited") naughty s l found)]. apply (so_far_other m _ _ s (u "Prohibited") l S1 D). discriminate.
    + apply IH; [exact R'|now apply (so_far_other m _ _ s k l S1 D)|now apply (so_far_other m _ _ s k l S2 D)].
Qed.
End Rows.

Lemma so_far_all d b m k sc : (forall i s l, demand b i s k l -> i < m) -> so_far d b m k sc -> holds_demands d b k sc.
Proof.
  intros B (H1 & H2). split.
  - intros s. rewrite H1. split; [intros (i & l & _ & D); now exists i, l|intros (i & l & D); exists i, l; split; [now apply (B i s l)|exact D]].
  - intros s names a G. destruct (H2 s names G) as (i & l & L & D & F & X). rewrite X. split.
    + intros (c & Ic & Sc). exists l, c. split; [|auto]. exists i. split; [exact D|]. intros j l' Lj Dj. apply (F j l'); [|exact Dj]. split; [exact Lj|exact (B j s l' Dj)].
    + intros (l0 & c & (i0 & D0 & F0) & Ic & Sc). exists c. split; [|exact Sc]. destruct (Nat.lt_trichotomy i i0) as [T|[T|T]].
      * elim (F i0 l0); [|exact D0]. split; [exact T|exact (B i0 s l0 D0)].
      * subst i0. destruct (demand_fun _ _ _ _ _ _ _ _ D D0) as (_ & _ & ->). exact Ic.
      * elim (F0 i l T D).
Qed.
Lemma parse_valid_ok n d height b names rows : well_formed d -> acyclic d height -> 0 < n -> WF b -> get_loop_names (u "_dictionary_valid.application") b = Ret names ->
  is_table b names rows -> In (u "_dictionary_valid.attributes") names ->
  (forall i, i < rows -> exists s k l, demand b i s k l /\ forall c, In c l -> category d (lower c) -> S (height (lower c)) < n) ->
  exists mand naughty, parse_valid n d b = Ret (mand, naughty) /\ holds_demands d b (u "Mandatory") mand /\ holds_demands d b (u "Prohibited") naughty.
Proof.
  intros W A P WFb L T I2 R. pose proof (table_key b names rows _ T L WFb) as I1. change (lower (u "_dictionary_valid.application")) with (u "_dictionary_valid.application") in I1. unfold parse_valid. assert (has_key valid_application b = true) as ->.
  { unfold get_loop_names in L. destruct (find_loop _ b) as [k|] eqn:E; [|discriminate]. exact (wf_find_loop_key b _ k WFb E). }
  cbn [negb]. destruct (packets_spec b valid_application names rows WFb L T) as (ps & E & Lp & Rp). rewrite E. cbn [obind].
  destruct (parse_rows_ok n d height b W A P ps 0 [] []) as (mand & naughty & Er & S1 & S2).
  - intros j p Hj. cbn [Nat.add]. assert (j < rows) as Lj by (rewrite <- Lp; apply nth_error_Some; congruence). destruct (R j Lj) as (s & k & l & D & Hc). pose proof D as (v & w & C1 & L1 & C2 & L2).
    destruct (row_attr b names j p valid_application rows WFb T (Rp j p Hj) I1) as (v' & Pv & Cv). destruct (row_attr b names j p valid_attributes rows WFb T (Rp j p Hj) I2) as (w' & Pw & Cw).
    pose proof (cell_fun _ _ _ _ _ C1 Cv). pose proof (cell_fun _ _ _ _ _ C2 Cw). subst v' w'. exists s, k, l, v, w. repeat (split; [assumption|]). exact Hc.
  - split; [|intros s names0 G; discriminate G]. intros s. split; [intros (x & G); discriminate G|intros (i & l & Li & _); lia].
  - split; [|intros s names0 G; discriminate G]. intros s. split; [intros (x & G); discriminate G|intros (i & l & Li & _); lia].
  - exists mand, naughty. split; [exact Er|]. cbn [Nat.add] in S1, S2. rewrite Lp in S1, S2.
    assert (forall k i s l, demand b i s k l -> i < rows) as B. { intros k i s l (v & w & (l0 & G & Nv) & _). destruct T as (_ & T). destruct (T _ I1) as (_ & l1 & G1 & Len). rewrite G1 in G. injection G as <-. rewrite <- Len. apply nth_error_Some. congruence. }
    split; apply (so_far_all d b rows); [apply B|exact S1|apply B|exact S2].
Qed.
Lemma parse_valid_none n d b : has_key (u "_dictionary_valid.application") b = false -> parse_valid n d b = Ret ([], []).
Proof. intros H. unfold parse_valid, valid_application. now rewrite H. Qed.
