(** The output sink. *)
From Coq Require Import String Ascii List NArith ZArith Bool Lia ZifyBool ZifyN ZifyNat.
From Verif Require Import PyBase PyFacts RegexModel FoldModel StarBlockModel LoopModel ScanModel FormatModel WriteModel
  FoldSpec WriteSpec.
Import ListNotations.
Open Scope nat_scope.

Lemma blanks_app a b : blanks_only a -> blanks_only b -> blanks_only (a ++ b).
Proof. intros Ha Hb. apply Forall_app. now split. Qed.
Lemma blanks_spaces n : blanks_only (spaces n).
Proof. unfold spaces, blanks_only. apply Forall_forall. intros c H. apply repeat_spec in H. now left. Qed.
Lemma blanks_nil : blanks_only []. Proof. constructor. Qed.
Lemma spaces_pos n : (0 < n)%Z -> spaces n <> [].
Proof. intros H. unfold spaces. destruct (Z.to_nat n) eqn:E; [lia|discriminate]. Qed.

(** Stages of write. *)
Lemma break_out k : k_out (break_line k) = k_out k ++ [10%N] ++ spaces (top_indent k)
  /\ k_tab (break_line k) = k_tab k /\ k_width (break_line k) = k_width k.
Proof. repeat split. Qed.
Lemma next_stop_gt p t : (0 < t)%Z -> (p < (p / t + 1) * t)%Z.
Proof. intros H. pose proof (Z.div_mod p t ltac:(lia)). pose proof (Z.mod_pos_bound p t H). nia. Qed.

(** What one call adds: blanks, then the text (or not, for a delimiter). *)
Lemma write_spec a s k k' : write a s k = Ret k' ->
  exists w t, k_out k' = k_out k ++ w ++ t /\ blanks_only w
  /\ (t = s \/ (a_delim a = true /\ t = []))
  /\ k_tab k' = k_tab k /\ k_width k' = k_width k
  /\ (a_mustbreak a = true -> exists w', w = 10%N :: w')
  /\ ((0 < k_tab k)%Z -> a_tab a = true -> (a_startcol a <> 0)%Z -> w <> [])
  /\ (s <> [] -> k_last k' = last_char s)
  /\ (a_delim a = false -> a_canbreak a = true -> first_is nl s = false ->
      (k_pos k + Z.of_nat (length s) > k_width k)%Z -> a_mustbreak a = false -> w <> [])
  /\ (t = [] -> s <> [] -> (k_pos k + Z.of_nat (length s) > k_width k)%Z \/ (exists c, k_last k = Some c /\ In c [32; 10; 9]%N) \/ w <> []).
Proof.
  unfold write. destruct (a_delim a && (1 <? length s)) eqn:E1; [discriminate|]. cbv zeta.
  set (k0 := if a_mustbreak a then break_line k else k).
  set (over := (k_pos k0 + Z.of_nat (length s) >? k_width k0)%Z).
  destruct (over && negb (a_delim a) && (length s =? 0)) eqn:E2; [discriminate|].
  set (starts := first_is nl s).
  set (k1 := if over && negb (a_delim a) && negb starts && a_canbreak a then break_line k0 else k0).
  set (at_col := ((a_startcol a >? 0) && (k_pos k1 <? a_startcol a))%Z).
  set (k2 := if at_col then _ else k1).
  set (sc := if ((a_startcol a >? 0) && negb (k_pos k1 <? a_startcol a))%Z then (-1)%Z else a_startcol a).
  set (ns := ((k_pos k2 / k_tab k2 + 1) * k_tab k2)%Z).
  set (k3 := if ((k_tab k2 >? 0)%Z && a_tab a && (sc <? 0)%Z && (k_pos k2 <? ns)%Z)%bool then _ else k2).
  set (k4 := if a_newindent a then _ else _).
  set (drop := _ || _). set (k5 := if a_delim a && drop then k4 else put s k4).
  intros E. injection E as <-.
  assert (exists w0, k_out k0 = k_out k ++ w0 /\ blanks_only w0 /\ k_tab k0 = k_tab k /\ k_width k0 = k_width k
          /\ (a_mustbreak a = true -> exists w', w0 = 10%N :: w') /\ (a_mustbreak a = false -> k0 = k /\ w0 = [])
          /\ (k_last k0 = k_last k \/ w0 <> [])) as (w0 & A0 & B0 & C0 & D0 & F0 & G0 & H0).
  { unfold k0. destruct (a_mustbreak a).
    - exists ([10%N] ++ spaces (top_indent k)). split; [reflexivity|]. split; [apply blanks_app; [repeat constructor; now right|apply blanks_spaces]|].
      split; [reflexivity|]. split; [reflexivity|]. split; [intros _; eexists; reflexivity|]. split; [discriminate|]. right. discriminate.
    - exists []. rewrite app_nil_r. repeat split; try reflexivity; [constructor|discriminate|now left]. }
  assert (exists w1, k_out k1 = k_out k0 ++ w1 /\ blanks_only w1 /\ k_tab k1 = k_tab k0 /\ k_width k1 = k_width k0
          /\ (over = true -> a_delim a = false -> starts = false -> a_canbreak a = true -> w1 <> [])
          /\ (k_last k1 = k_last k0 \/ w1 <> [])) as (w1 & A1 & B1 & C1 & D1 & F1 & G1).
  { unfold k1. destruct (over && negb (a_delim a) && negb starts && a_canbreak a) eqn:Ek.
    - exists ([10%N] ++ spaces (top_indent k0)). split; [reflexivity|]. split; [apply blanks_app; [repeat constructor; now right|apply blanks_spaces]|].
      split; [reflexivity|]. split; [reflexivity|]. split; [discriminate|right; discriminate].
    - exists []. rewrite app_nil_r. repeat split; try reflexivity; [constructor| |now left]. intros X1 X2 X3 X4. rewrite X1, X2, X3, X4 in Ek. discriminate. }
  assert (exists w2, k_out k2 = k_out k1 ++ w2 /\ blanks_only w2 /\ k_tab k2 = k_tab k1 /\ k_width k2 = k_width k1
          /\ (at_col = true -> w2 <> []) /\ (k_last k2 = k_last k1 \/ w2 <> [])) as (w2 & A2 & B2 & C2 & D2 & F2 & G2).
  { unfold k2. destruct at_col eqn:Ea.
    - assert (spaces (a_startcol a - k_pos k1) <> []) as Hs by (apply spaces_pos; unfold at_col in Ea; lia).
      exists (spaces (a_startcol a - k_pos k1)). repeat split; try reflexivity; [apply blanks_spaces|auto|auto].
    - exists []. rewrite app_nil_r. repeat split; try reflexivity; [constructor|discriminate|now left]. }
  assert (exists w3, k_out k3 = k_out k2 ++ w3 /\ blanks_only w3 /\ k_tab k3 = k_tab k2 /\ k_width k3 = k_width k2
          /\ ((0 < k_tab k2)%Z -> a_tab a = true -> (sc < 0)%Z -> w3 <> []) /\ (k_last k3 = k_last k2 \/ w3 <> [])) as (w3 & A3 & B3 & C3 & D3 & F3 & G3).
  { unfold k3. destruct ((k_tab k2 >? 0)%Z && a_tab a && (sc <? 0)%Z && (k_pos k2 <? ns)%Z) eqn:Ek.
    - assert (spaces (ns - k_pos k2) <> []) as Hs by (apply spaces_pos; lia).
      exists (spaces (ns - k_pos k2)). repeat split; try reflexivity; [apply blanks_spaces|auto|auto].
    - exists []. rewrite app_nil_r. repeat split; try reflexivity; [constructor| |now left].
      intros H1 H2 H3. exfalso. rewrite H2 in Ek. pose proof (next_stop_gt (k_pos k2) _ H1). fold ns in H. lia. }
  assert (k_out k4 = k_out k3 /\ k_tab k4 = k_tab k3 /\ k_width k4 = k_width k3 /\ k_last k4 = k_last k3) as (A4 & C4 & D4 & G4).
  { unfold k4. destruct (a_newindent a); [destruct (top_indent k3 =? 0)%Z; repeat split|].
    destruct (a_unindent a); [|repeat split]. destruct (k_indent k3) as [|x [|y l]]; repeat split. }
  set (t := if a_delim a && drop then [] else s).
  assert (k_out k5 = k_out k4 ++ t /\ k_tab k5 = k_tab k4 /\ k_width k5 = k_width k4) as (A5 & C5 & D5).
  { unfold k5, t. destruct (a_delim a && drop); [rewrite app_nil_r|]; repeat split. }
  set (k6 := match after_break s with Some n => _ | None => _ end).
  assert (k_out k6 = k_out k5 /\ k_tab k6 = k_tab k5 /\ k_width k6 = k_width k5) as (A6 & C6 & D6) by (unfold k6; destruct (after_break s); repeat split).
  set (k7 := match s with [] => k6 | _ => _ end).
  assert (k_out k7 = k_out k6 /\ k_tab k7 = k_tab k6 /\ k_width k7 = k_width k6 /\ (s <> [] -> k_last k7 = last_char s)) as (A7 & C7 & D7 & G7)
    by (unfold k7; destruct s; repeat split; congruence).
  exists (w0 ++ w1 ++ w2 ++ w3), t.
  split; [rewrite A7, A6, A5, A4, A3, A2, A1, A0, <- !app_assoc; reflexivity|].
  split; [auto using blanks_app|].
  split; [unfold t; destruct (a_delim a); cbn; [destruct drop; tauto|tauto]|].
  split; [congruence|]. split; [congruence|].
  split; [intros Hm; destruct (F0 Hm) as [w' ->]; cbn; eauto|].
  assert (forall x y z v : str, (x <> [] \/ y <> [] \/ z <> [] \/ v <> []) -> x ++ y ++ z ++ v <> []) as NE.
  { intros x y z v H E. apply app_eq_nil in E. destruct E as [-> E]. apply app_eq_nil in E. destruct E as [-> E].
    apply app_eq_nil in E. destruct E as [-> ->]. tauto. }
  split; [|split; [exact G7|split]].
  - intros Ht Hta Hst. apply NE. destruct at_col eqn:Ea; [right; right; left; now apply F2|]. right; right; right. apply F3; [lia|exact Hta|].
    unfold sc. unfold at_col in Ea. destruct ((a_startcol a >? 0) && negb (k_pos k1 <? a_startcol a))%Z eqn:Es; lia.
  - intros H1 H2 H3 H4 H5. destruct (G0 H5) as [E0 _]. apply NE. right; left. apply F1; try assumption. unfold over. rewrite E0. lia.
  - intros Ht Hs. unfold t in Ht. destruct (a_delim a) eqn:Ed; [|cbn in Ht; congruence]. cbn [andb] in Ht.
    destruct drop eqn:Edr; [|congruence]. unfold drop in Edr. apply orb_true_iff in Edr.
    destruct (list_eq_dec N.eq_dec (w0 ++ w1 ++ w2 ++ w3) []) as [Enil|Enil]; [|tauto].
    apply app_eq_nil in Enil. destruct Enil as [-> Enil]. apply app_eq_nil in Enil. destruct Enil as [-> Enil].
    apply app_eq_nil in Enil. destruct Enil as [-> ->].
    destruct Edr as [Edr|Edr].
    + left. unfold over in Edr. destruct (a_mustbreak a) eqn:Em; [destruct (F0 eq_refl); discriminate|]. destruct (G0 eq_refl) as [E0 _]. rewrite E0 in Edr. lia.
    + right. left. assert (k_last k4 = k_last k) as El by (rewrite G4; destruct G3 as [->|]; [|congruence]; destruct G2 as [->|]; [|congruence]; destruct G1 as [->|]; [|congruence]; destruct H0; congruence).
      rewrite El in Edr. destruct (k_last k) as [c|]; [|discriminate]. exists c. split; [reflexivity|]. unfold cmem in Edr. apply existsb_exists in Edr.
      destruct Edr as (x & Hx & Ex). apply N.eqb_eq in Ex. now subst.
Qed.
Lemma write_total a s k : s <> [] -> a_delim a = false \/ length s = 1 -> exists k', write a s k = Ret k'.
Proof.
  intros Hs Hd. unfold write. assert (a_delim a && (1 <? length s) = false) as ->.
  { destruct Hd as [->|E]; [reflexivity|]. rewrite E. apply andb_false_r. }
  cbv zeta. replace (length s =? 0) with false by (destruct s; [congruence|reflexivity]). rewrite andb_false_r. eauto.
Qed.
