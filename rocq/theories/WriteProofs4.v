(** What printing a block writes. *)
From Coq Require Import String Ascii List NArith ZArith Bool Lia ZifyBool ZifyN ZifyNat Permutation.
From Verif Require Import PyBase PyFacts RegexModel FoldModel StarBlockModel LoopModel ReadModel ScanModel FormatModel WriteModel
  StarBlockSpec LoopSpec ReadSpec FoldSpec ScanSpec FormatSpec StarBlockProofs4 LoopProofs FormatProofs FormatProofs2 WriteSpec WriteProofs WriteProofs2 WriteProofs3.
Import ListNotations.
Open Scope nat_scope.

(** ** Rows of a loop *)
Lemma concat_nth {A} (n : nat) (rows : list (list A)) : Forall (fun r => length r = n) rows -> forall i j, j < n ->
  nth_error (concat rows) (j + i * n) = match nth_error rows i with Some r => nth_error r j | None => None end.
Proof.
  induction 1 as [|r rows Hr HF IH]; intros i j Hj.
  - cbn [concat]. rewrite !(proj2 (nth_error_None _ _)) by (cbn; lia). reflexivity.
  - cbn [concat]. destruct i as [|i].
    + rewrite Nat.mul_0_l, Nat.add_0_r. rewrite nth_error_app1 by lia. reflexivity.
    + rewrite nth_error_app2 by lia. replace (j + S i * n - length r) with (j + i * n) by lia. cbn [nth_error]. now apply IH.
Qed.
Lemma nth_error_ext {A} (l m : list A) : (forall i, nth_error l i = nth_error m i) -> l = m.
Proof.
  revert m. induction l as [|x l IH]; intros [|y m] H; [reflexivity|discriminate (H 0)|discriminate (H 0)|].
  pose proof (H 0) as H0. cbn in H0. injection H0 as ->. f_equal. apply IH. intros i. exact (H (S i)).
Qed.
Lemma get_item_spelled n b v : get_item (lower n) b = Ret v -> get_item n b = Ret v.
Proof.
  unfold get_item. destruct (str_eqb_spec (lower n) (u "saves")) as [E|E]; [discriminate|].
  destruct (str_eqb_spec n (u "saves")) as [->|E2]; [contradiction E; reflexivity|].
  unfold get_full. now rewrite lower_idem.
Qed.
Lemma get_item_lower_of t b v : (exists r, t = 95%N :: r) -> get_item t b = Ret v -> get_item (lower t) b = Ret v.
Proof.
  intros [r E]. unfold get_item, get_full. rewrite lower_idem.
  assert (str_eqb (lower t) (u "saves") = false) as -> by (subst t; reflexivity).
  assert (str_eqb t (u "saves") = false) as -> by (subst t; reflexivity). auto.
Qed.
Lemma rows_of_table b ts vs : holds_rows b ts vs -> exists cols rows,
  get_items (map lower ts) b = Ret (map VList cols) /\ py_iters (map VList cols) = Ret cols /\ py_zip cols = rows
  /\ concat rows = vs /\ Forall (fun r => length r = length ts) rows.
Proof.
  intros [Ht Hc]. set (R := length vs / length ts) in *.
  destruct (table_values b _ R Ht) as (cols & E1 & E2 & HF & Hl). exists cols, (py_zip cols).
  split; [exact E1|]. split; [exact E2|]. split; [reflexivity|].
  pose proof (Forall2_len _ _ _ HF) as Hlen. rewrite map_length in Hlen.
  assert (length ts <> 0) as Hn. { destruct Ht as [Hne _]. destruct ts; [now contradiction Hne|discriminate]. }
  assert (py_zip cols = zip_rows R cols) as E3.
  { destruct cols as [|c cols]; [cbn in Hlen; lia|]. cbn [py_zip]. now rewrite (Hl c (or_introl eq_refl)). }
  destruct (zip_rows_spec R cols Hl) as [Hz Hr]. rewrite E3.
  assert (Forall (fun r => length r = length ts) (zip_rows R cols)) as HL.
  { apply Forall_forall. intros r Hi. apply In_nth_error in Hi. destruct Hi as [i Ei]. specialize (Hr i r Ei). apply Forall2_len in Hr. lia. }
  split; [|exact HL]. apply nth_error_ext. intros m.
  rewrite (Nat.div_mod m (length ts) Hn). rewrite Nat.add_comm, (Nat.mul_comm (length ts)).
  assert (m mod length ts < length ts) as Hj by (apply Nat.mod_upper_bound; exact Hn).
  generalize dependent (m mod length ts). generalize (m / length ts). intros i j Hj.
  rewrite (concat_nth (length ts)) by (exact HL || exact Hj).
  destruct (nth_error ts j) as [n|] eqn:En; [|apply nth_error_None in En; lia].
  assert (exists c, nth_error cols j = Some c /\ get_item (lower n) b = Ret (VList c)) as (c & Ec & Eg).
  { assert (nth_error (map lower ts) j = Some (lower n)) as En' by (rewrite nth_error_map, En; reflexivity).
    clear -HF En'. revert j En'. induction HF as [|x y l l' H HF IH]; intros j En'; [destruct j; discriminate|].
    destruct j as [|j]; [injection En' as ->; exists y; split; [reflexivity|exact H]|]. apply IH. exact En'. }
  assert (forall v, cell b n i v <-> nth_error c i = Some v) as Hcell.
  { intros v. split.
    - intros (l & El & Ev). apply get_item_spelled in Eg. congruence.
    - intros Ev. exists c. split; [now apply get_item_spelled|exact Ev]. }
  assert (nth_error vs (j + i * length ts) = nth_error c i) as ->.
  { destruct (nth_error c i) as [v|] eqn:Ev.
    - apply (Hc j n En i v). now apply Hcell.
    - destruct (nth_error vs (j + i * length ts)) as [v|] eqn:Ev2; [|reflexivity]. apply (Hc j n En i v) in Ev2. apply Hcell in Ev2. congruence. }
  assert (length c = R) as Lc by (apply Hl; eapply nth_error_In; eauto).
  destruct (nth_error (zip_rows R cols) i) as [r|] eqn:Er.
  - specialize (Hr i r Er). clear -Hr Ec. revert j Ec. induction Hr as [|x y l l' H HF IH]; intros j Ec; [destruct j; discriminate|].
    destruct j as [|j]; [cbn in Ec; injection Ec as ->; cbn; now rewrite H|]. now apply IH.
  - apply nth_error_None in Er. symmetry. apply nth_error_None. lia.
Qed.

Section Print.
Variables (g : grammar) (maxout : Z) (hs : list hint).

Lemma loop_print b l ts vs k ps z : dget Z.eqb l (b_loops b) = Some (map lower ts) ->
  Forall (fun t => dget str_eqb (lower t) (b_true b) = Some t) ts -> holds_rows b ts vs -> distinct hs (Lp ts vs) ->
  At k ps z -> fit k -> exists k' qs z', print_item g maxout hs 0 b (OL l) k = Ret k' /\ spells g maxout hs (Lp ts vs) qs /\ At k' (ps ++ qs) z' /\ fit k'.
Proof using.
  intros Hl Ht Hh (Gt & Tv & Hd) HA Hf. cbn [print_item]. rewrite Hl.
  set (ind := match filter _ hs with h :: _ => _ | [] => 0%Z end).
  destruct (write_text (WArgs false true false false false false ind) (u "loop_" ++ [nl]) (set_tab 10 k) eq_refl ltac:(discriminate))
    as (k1 & w1 & E1 & O1 & B1 & T1 & W1 & L1 & I1 & _ & _ & M1 & _).
  rewrite E1. cbn [obind]. destruct (M1 eq_refl) as [w1' Ew1]. specialize (I1 eq_refl eq_refl). cbn [set_tab k_out k_width k_indent k_tab] in O1, W1, I1, T1.
  assert (At k1 (ps ++ [PLoop]) [nl]) as A1.
  { destruct HA as (y & Ey & Hy & Hz). exists (y ++ (z ++ w1) ++ u "loop_"). split; [rewrite O1, Ey, <- !app_assoc; reflexivity|].
    split; [|apply blanks_nl]. change (u "loop_") with (ptext PLoop). constructor; [exact Hy|now apply blanks_app|]. left. subst w1. destruct z; discriminate. }
  pose proof (write_pos_nl _ _ _ _ E1) as P1. destruct Hf as [F1 F2].
  destruct (names_print hs b (0 + 2) (map lower ts) ts) with (k := k1) (ps := ps ++ [PLoop]) (z := [nl]) as (k2 & z2 & E2 & A2 & Z2 & F2' & _ & T2); auto.
  { clear -Ht. induction Ht; constructor; auto. }
  { discriminate. }
  { split; congruence. }
  rewrite E2. cbn [obind]. destruct (rows_of_table b ts vs Hh) as (cols & rows & C1 & C2 & C3 & C4 & C5).
  rewrite C1. cbn [obind]. rewrite C2. cbn [obind]. rewrite C3.
  destruct (packets_print g maxout hs rows) with (names := map lower ts) (k := k2) (ps := (ps ++ [PLoop]) ++ map PName ts) (z := z2) (first := true)
    as (k3 & qs & z3 & E3 & P3 & A3 & F3); auto.
  { rewrite <- C4 in Tv. rewrite Forall_forall in Tv |- *. intros r Hr. apply Forall_forall. intros v Hv. apply Tv. apply in_concat. eauto. }
  { now rewrite map_length. }
  { destruct Hd as [[Hd Hh']|Hd].
    - left. rewrite <- C4 in Hd. split; [|split; [lia|exact Hh']]. rewrite Forall_forall in Hd |- *. intros r Hr. apply Forall_forall. intros v Hv. apply Hd. apply in_concat. eauto.
    - right. now apply Hd. }
  exists k3, (PLoop :: map PName ts ++ qs), z3. split; [exact E3|]. split; [exists qs; split; [reflexivity|now rewrite C4 in P3]|].
  split; [|exact F3]. rewrite <- !app_assoc in A3. exact A3.
Qed.

Lemma items_print b its es : Forall2 (shows b) its es -> Forall (distinct hs) es -> forall k ps z, At k ps z -> fit k ->
  exists k' pss z', print_items g maxout hs 0 b its k = Ret k' /\ Forall2 (spells g maxout hs) es pss /\ At k' (ps ++ concat pss) z' /\ fit k'.
Proof using.
  induction 1 as [|it e its es Hs HF IH]; intros Hd k ps z HA Hf; cbn [print_items].
  - exists k, [], z. cbn. rewrite app_nil_r. split; [reflexivity|]. split; [constructor|]. auto.
  - apply Forall_cons_iff in Hd. destruct Hd as [Hd Hds].
    assert (exists k' qs z', print_item g maxout hs 0 b it k = Ret k' /\ spells g maxout hs e qs /\ At k' (ps ++ qs) z' /\ fit k') as (k1 & qs & z1 & E1 & S1 & A1 & F1).
    { destruct it as [n|l], e as [t v|ts vs]; cbn [shows] in Hs; try contradiction.
      - destruct Hs as (-> & Ht & Hg & _). apply (kv_print g maxout hs 0 b (lower t) t v k ps z); auto.
        apply get_item_lower_of; [apply Hd|assumption].
      - destruct Hs as (Hl & Ht & Hh). now apply (loop_print b l ts vs k ps z). }
    rewrite E1. cbn [obind]. destruct (IH Hds k1 (ps ++ qs) z1 A1 F1) as (k2 & pss & z2 & E2 & S2 & A2 & F2).
    exists k2, (qs :: pss), z2. split; [exact E2|]. split; [now constructor|]. cbn [concat]. rewrite app_assoc. auto.
Qed.

(** The whole block, in the order in which it is printed. *)
Lemma block_print b b' new extras es : full_order hs b = Ret (new, extras, b') -> Forall2 (shows b') (new ++ extras) es -> Forall (distinct hs) es ->
  exists out pss, print_block g maxout hs b = Ret out /\ Forall2 (spells g maxout hs) es pss /\ laid_after None (concat pss) out.
Proof using.
  intros Ho HF Hd. unfold print_block. rewrite Ho. cbn [obind].
  change (write (WArgs true false true false false false (-1)) [] new_sink) with (Ret (Sink [] 0 80 (-1) [0%Z] None)). cbn [obind].
  destruct (items_print b' _ es HF Hd (Sink [] 0 80 (-1) [0%Z] None) [] []) as (k & pss & z & E & S & A & _).
  { exists []. split; [reflexivity|]. split; constructor. }
  { split; reflexivity. }
  rewrite E. cbn [obind]. exists (k_out k), pss. split; [reflexivity|]. split; [exact S|]. now apply At_laid in A.
Qed.
End Print.
