(** Proofs for C131. *)
From Coq Require Import String Ascii List NArith PeanoNat Bool Lia.
From Verif Require Import PyBase PointerModel PointerSpec.
Import ListNotations.
Open Scope nat_scope.

(** * Lines and columns *)
Lemma lines_cons : forall s, exists l r, lines s = l :: r.
Proof.
  induction s as [|c s IH]; cbn [lines].
  - eauto.
  - destruct (N.eqb c 10); [eauto|]. destruct IH as (l & r & ->). eauto.
Qed.
Lemma rfind_count : forall s, rfind_ch 10 s = None <-> count_ch 10 s = 0.
Proof.
  induction s as [|c s IH]; unfold count_ch in *; cbn [rfind_ch filter]; [tauto|].
  destruct (N.eqb 10 c); cbn [length].
  - destruct (rfind_ch 10 s); split; intros H; discriminate H.
  - destruct (rfind_ch 10 s).
    + split; [intros H; discriminate H|]. intros H. apply IH in H. discriminate H.
    + tauto.
Qed.
Lemma rfind_lt : forall c s n, rfind_ch c s = Some n -> n < length s.
Proof.
  intros c s. induction s as [|d s IH]; cbn [rfind_ch]; intros n H; [discriminate H|].
  destruct (rfind_ch c s) eqn:E.
  - injection H as <-. specialize (IH _ eq_refl). cbn [length]. lia.
  - destruct (N.eqb c d); [|discriminate H]. injection H as <-. cbn [length]. lia.
Qed.
Definition col_of (t : str) : nat := length t - match rfind_ch 10 t with Some i => i + 1 | None => 0 end.
Lemma place_lines : forall s p, p <= length s ->
  exists l, nth_error (lines s) (count_ch 10 (firstn p s)) = Some l /\ col_of (firstn p s) <= length l /\
    p = before_line (lines s) (count_ch 10 (firstn p s)) + col_of (firstn p s).
Proof.
  induction s as [|c s IH]; intros p Hp.
  - cbn [length] in Hp. assert (p = 0) as -> by lia. exists []. repeat split; cbn; lia.
  - destruct p as [|p].
    + cbn [firstn]. destruct (lines_cons (c :: s)) as (l & r & ->). exists l. repeat split; cbn; lia.
    + cbn [length] in Hp. assert (Hp' : p <= length s) by lia. destruct (IH p Hp') as (l & N1 & C1 & P1).
      cbn [firstn lines]. unfold count_ch, col_of in *. cbn [filter rfind_ch].
      assert (L := firstn_length_le s Hp').
      rewrite (N.eqb_sym c 10). destruct (N.eqb 10 c) eqn:E.
      * cbn [length nth_error before_line]. exists l. split; [exact N1|].
        destruct (rfind_ch 10 (firstn p s)) eqn:R; split; lia.
      * destruct (lines_cons s) as (l0 & r & Q). rewrite Q in *.
        destruct (rfind_ch 10 (firstn p s)) eqn:R.
        -- assert (NZ : length (filter (N.eqb 10) (firstn p s)) <> 0).
           { intros Z. apply rfind_count in Z. rewrite Z in R. discriminate R. }
           destruct (length (filter (N.eqb 10) (firstn p s))) as [|k]; [congruence|].
           cbn [nth_error before_line length] in *. exists l. split; [exact N1|]. apply rfind_lt in R. split; lia.
        -- assert (Z : length (filter (N.eqb 10) (firstn p s)) = 0) by (apply rfind_count; exact R).
           rewrite Z in *. cbn [nth_error before_line length] in *. injection N1 as <-.
           exists (c :: l0). split; [reflexivity|]. cbn [length]. split; lia.
Qed.
Lemma coords : forall s, sc_pos s <= length (sc_input s) -> at_place (sc_input s) (sc_pos s) (line_number s) (column_number s).
Proof.
  intros s H. destruct (place_lines _ _ H) as (l & A & B & C). exists l.
  unfold line_number, column_number, input_scanned. cbn [Nat.add].
  rewrite Nat.sub_succ, Nat.sub_0_r. split; [exact A|]. split; [lia|]. split; [exact B|exact C].
Qed.
Lemma before_mono : forall ls i j l, nth_error ls i = Some l -> i < j -> before_line ls i + length l + 1 <= before_line ls j.
Proof.
  induction ls as [|x ls IH]; intros i j l H L; [destruct i; discriminate H|].
  destruct j as [|j]; [lia|]. destruct i as [|i]; cbn [nth_error before_line] in *.
  - injection H as ->. lia.
  - specialize (IH i j l H). lia.
Qed.
Lemma place_unique : forall s p a b a' b', at_place s p a b -> at_place s p a' b' -> a = a' /\ b = b'.
Proof.
  intros s p a b a' b' (l & N1 & G & C & E) (l' & N1' & G' & C' & E').
  destruct (Nat.lt_trichotomy (a - 1) (a' - 1)) as [L | [L | L]].
  - pose proof (before_mono _ _ _ _ N1 L). lia.
  - rewrite L in E. split; lia.
  - pose proof (before_mono _ _ _ _ N1' L). lia.
Qed.

(** * The picture *)
Lemma rfind_spec : forall c s, match rfind_ch c s with
  | None => ~ In c s
  | Some i => exists l r, s = l ++ c :: r /\ length l = i /\ ~ In c r
  end.
Proof.
  intros c. induction s as [|d s IH]; cbn [rfind_ch]; [tauto|]. destruct (rfind_ch c s).
  - destruct IH as (l & r & -> & L & N1). exists (d :: l), r. split; [reflexivity|]. split; [cbn [length]; lia|exact N1].
  - destruct (N.eqb c d) eqn:E.
    + apply N.eqb_eq in E. subst d. exists [], s. repeat split. exact IH.
    + apply N.eqb_neq in E. cbn [In]. intros [X | X]; [congruence|tauto].
Qed.
Lemma to_break_app : forall a b, (forall c, In c a -> break c = false) -> to_break (a ++ b) = a ++ to_break b.
Proof.
  induction a as [|c a IH]; intros b H; [reflexivity|]. cbn [app to_break]. rewrite (H c (or_introl eq_refl)).
  f_equal. apply IH. intros d I. apply H. now right.
Qed.
Lemma not_break : forall c, c <> 10%N -> c <> 13%N -> break c = false.
Proof. intros c A B. unfold break. apply N.eqb_neq in A. apply N.eqb_neq in B. now rewrite A, B. Qed.
Lemma to_break_firstn : forall n s, to_break (firstn n s) = firstn n (to_break s).
Proof.
  induction n as [|n IH]; intros s; [reflexivity|]. destruct s as [|c s]; [reflexivity|].
  cbn [firstn to_break]. destruct (break c); [reflexivity|]. cbn [firstn]. f_equal. apply IH.
Qed.
Lemma pick_break : forall z, match pick (find_ch 10 z) (find_ch 13 z) with Some i => firstn i z | None => z end = to_break z.
Proof.
  induction z as [|c z IH]; [reflexivity|]. cbn [find_ch to_break]. unfold break. rewrite (N.eqb_sym c 10), (N.eqb_sym c 13).
  destruct (N.eqb 10 c) eqn:E; cbn [orb].
  - apply N.eqb_eq in E. subst c. cbn [N.eqb Pos.eqb]. destruct (find_ch 13 z); reflexivity.
  - destruct (N.eqb 13 c) eqn:F.
    + destruct (find_ch 10 z); reflexivity.
    + rewrite <- IH. destruct (find_ch 10 z) as [a|], (find_ch 13 z) as [b|]; cbn [pick]; try reflexivity.
      change (S b <? S a) with (b <? a). destruct (b <? a); reflexivity.
Qed.
Lemma skipn_app_len : forall {A} (a b : list A), skipn (length a) (a ++ b) = b.
Proof. intros A a b. induction a as [|x a IH]; [reflexivity|exact IH]. Qed.
Lemma firstn_app_len : forall {A} (a b : list A) n, firstn (length a + n) (a ++ b) = a ++ firstn n b.
Proof. intros A a b n. induction a as [|x a IH]; [reflexivity|]. cbn [length Nat.add firstn app]. now rewrite IH. Qed.
Lemma strip_right_spec : forall r z, strip_right (r ++ z) (length r) = r ++ to_break z.
Proof.
  intros r z. unfold strip_right, find_from. rewrite skipn_app_len. rewrite <- pick_break.
  destruct (find_ch 10 z) as [a|], (find_ch 13 z) as [b|]; cbn [pick].
  - replace (length r + b <? length r + a) with (b <? a).
    + destruct (b <? a); apply firstn_app_len.
    + destruct (Nat.ltb_spec b a), (Nat.ltb_spec (length r + b) (length r + a)); try reflexivity; lia.
  - apply firstn_app_len.
  - apply firstn_app_len.
  - reflexivity.
Qed.
Lemma strip_left_spec : forall w z, ~ In 13%N w -> exists r, strip_left (w ++ z) (length w) = (r ++ z, length r) /\
  r = rev (to_break (rev w)).
Proof.
  intros w z H. unfold strip_left. 
  replace (firstn (length w) (w ++ z)) with w by (pose proof (firstn_app_len w z 0) as F; rewrite Nat.add_0_r in F; rewrite F; cbn [firstn]; now rewrite app_nil_r).
  pose proof (rfind_spec 13 w) as S13. destruct (rfind_ch 13 w) as [j|].
  { destruct S13 as (l & r & -> & _). exfalso. apply H. apply in_or_app. right. now left. }
  pose proof (rfind_spec 10 w) as S10. destruct (rfind_ch 10 w) as [i|]; cbn [pick].
  - destruct S10 as (l & r & -> & L & N1).
    assert (Q : (i <? length (l ++ 10%N :: r)) = true).
    { apply Nat.ltb_lt. rewrite app_length. cbn [length]. lia. }
    rewrite Q. exists r. split.
    + f_equal.
      * replace (l ++ 10%N :: r) with ((l ++ [10%N]) ++ r) by (rewrite <- app_assoc; reflexivity).
        rewrite <- app_assoc. replace (i + 1) with (length (l ++ [10%N])) by (rewrite app_length; cbn [length]; lia).
        apply skipn_app_len.
      * rewrite app_length. cbn [length]. lia.
    + rewrite rev_app_distr. cbn [rev]. rewrite <- app_assoc. rewrite to_break_app.
      * cbn [app to_break]. change (break 10) with true. cbn iota. rewrite app_nil_r, rev_involutive. reflexivity.
      * intros c I. apply in_rev in I. apply not_break; intros ->; [exact (N1 I)|]. apply H. apply in_or_app. right. now right.
  - exists w. split; [reflexivity|].
    rewrite <- (app_nil_r (rev w)). rewrite to_break_app.
    + cbn [to_break]. rewrite app_nil_r, rev_involutive. reflexivity.
    + intros c I. apply in_rev in I. apply not_break; intros ->; [exact (S10 I)|exact (H I)].
Qed.
Lemma skipn_skipn' : forall {A} (i j : nat) (l : list A), skipn i (skipn j l) = skipn (j + i) l.
Proof.
  intros A i j l. revert l. induction j as [|j IH]; intros l; [reflexivity|]. destruct l as [|x l]; [now rewrite !skipn_nil|]. apply IH.
Qed.
Lemma shorten_spec : forall fuel pre a, length pre < fuel ->
  exists q, shorten fuel (pre ++ a) (length pre) = (q ++ a, length q) /\ (length q <= 60 \/ length (q ++ a) <= 70) /\
    (q = pre \/ (60 < length pre /\ 70 < length pre + length a /\ 54 <= length q) /\ exists k, 10 <= k /\ q = u "..." ++ skipn k pre).
Proof.
  induction fuel as [|f IH]; intros pre a H; [lia|]. cbn [shorten].
  destruct (70 <? length (pre ++ a)) eqn:A; destruct (60 <? length pre) eqn:B; cbn [andb];
    try (apply Nat.ltb_lt in A || apply Nat.ltb_ge in A); try (apply Nat.ltb_lt in B || apply Nat.ltb_ge in B);
    try (exists pre; split; [reflexivity|]; split; [lia|]; left; reflexivity).
  rewrite app_length in A.
  assert (E : skipn 10 (pre ++ a) = skipn 10 pre ++ a).
  { rewrite skipn_app. replace (10 - length pre) with 0 by lia. reflexivity. }
  rewrite E, app_assoc. set (q0 := u "..." ++ skipn 10 pre).
  assert (L : length q0 = length pre - 7).
  { unfold q0. rewrite app_length, skipn_length. change (length (u "...")) with 3. lia. }
  rewrite <- L. destruct (IH q0 a) as (q & Q & R & D); [lia|]. exists q. split; [exact Q|]. split; [exact R|]. right.
  destruct D as [-> | [(D1 & D2 & D3) (k & K & D)]].
  - split; [lia|]. exists 10. split; [lia|reflexivity].
  - split; [lia|]. exists (10 + (k - 3)). split; [lia|]. rewrite D. f_equal. rewrite <- skipn_skipn'.
    unfold q0. rewrite skipn_app. change (length (u "...")) with 3.
    rewrite skipn_all2 by (change (length (u "...")) with 3; lia). reflexivity.
Qed.
Lemma pointed_spec : forall text p, p <= length text -> ~ In 13%N (skipn (p - 80) (firstn p text)) ->
  exists shown col, pointed text p = (shown, col) /\ shows text p shown col.
Proof.
  intros text p Hp Hcr. unfold pointed, shows.
  set (w := skipn (p - 80) (firstn p text)) in *.
  assert (Lf : length (firstn p text) = p) by (apply firstn_length_le; exact Hp).
  assert (Lw : length w = p - (p - 80)) by (unfold w; rewrite skipn_length, Lf; reflexivity).
  assert (T1 : skipn (p - 80) (firstn (p + 80) text) = w ++ firstn 80 (skipn p text)).
  { rewrite <- (firstn_skipn p text) at 1. rewrite <- Lf at 2. rewrite firstn_app_len. rewrite skipn_app, Lf.
    replace (p - 80 - p) with 0 by lia. reflexivity. }
  rewrite T1, <- Lw. destruct (strip_left_spec w (firstn 80 (skipn p text)) Hcr) as (r & E & Hr). rewrite E.
  rewrite strip_right_spec, to_break_firstn. fold (line_after text p).
  assert (B : r = line_before text p).
  { rewrite Hr. unfold line_before. do 2 f_equal. rewrite firstn_rev, Lf. reflexivity. }
  rewrite <- B. destruct (shorten_spec (S (length r)) r (line_after text p)) as (q & Q & R & D); [lia|].
  rewrite Q. exists (q ++ line_after text p), (length q). split; [reflexivity|]. exists q.
  split; [reflexivity|]. split; [reflexivity|]. split; [exact R|exact D].
Qed.
Lemma printed_spec : forall text p, p <= length text -> ~ In 13%N (skipn (p - 80) (firstn p text)) ->
  exists shown col, shows text p shown col /\
    print_line_with_pointer text p = [u ">  " ++ shown; u ">  " ++ repeat 32%N col ++ u "^"].
Proof.
  intros text p H C. destruct (pointed_spec text p H C) as (s & c & E & Sh). exists s, c. split; [exact Sh|].
  unfold print_line_with_pointer. rewrite E. reflexivity.
Qed.
(** The character under the pointer. *)
Lemma under_pointer : forall text p shown col, shows text p shown col ->
  match nth_error text p with
  | Some c => if break c then col = length shown else nth_error shown col = Some c
  | None => p < length text -> False
  end.
Proof.
  intros text p shown col (pre & -> & L & _). destruct (nth_error text p) as [c|] eqn:E.
  - apply nth_error_split in E. destruct E as (a & b & -> & Lp).
    unfold line_after. rewrite <- Lp, skipn_app_len. cbn [to_break].
    destruct (break c).
    + cbn [firstn]. rewrite app_nil_r. symmetry. exact L.
    + rewrite nth_error_app2 by lia. rewrite <- L, Nat.sub_diag. reflexivity.
  - intros H. apply nth_error_None in E. lia.
Qed.

(** * Reports *)
Lemma print_context_spec : forall c s, (sc_pos s = 0 \/ forall i r, In (i, r) c -> i < length (sc_tokens s)) ->
  exists ps, length ps = length c /\
    (forall n i r, nth_error c n = Some (i, r) -> exists p, nth_error ps n = Some p /\
       (sc_pos s = 0 /\ p = 0 \/ sc_pos s <> 0 /\ exists t, nth_error (sc_tokens s) i = Some t /\ p = t_start t)) /\
    print_context c s = Ret (flat_map (fun x => PWhile (snd (fst x)) :: map PLine (print_line_with_pointer (sc_input s) (snd x))) (combine c ps)).
Proof.
  induction c as [|[i r] c IH]; intros s H.
  - exists []. split; [reflexivity|]. split; [intros [|n] i r E; discriminate E|reflexivity].
  - assert (H' : sc_pos s = 0 \/ forall i r, In (i, r) c -> i < length (sc_tokens s)).
    { destruct H as [H | H]; [now left|right]. intros j q I. apply (H j q). now right. }
    destruct (IH s H') as (ps & L & A & E).
    assert (exists p, prev_char_pos s i = Ret p /\ (sc_pos s = 0 /\ p = 0 \/ sc_pos s <> 0 /\ exists t, nth_error (sc_tokens s) i = Some t /\ p = t_start t)) as (p & P & D).
    { unfold prev_char_pos. destruct (sc_pos s =? 0) eqn:Z.
      - apply Nat.eqb_eq in Z. exists 0. split; [reflexivity|]. left. now split.
      - apply Nat.eqb_neq in Z. destruct H as [H | H]; [contradiction|].
        specialize (H i r (or_introl eq_refl)). destruct (nth_error (sc_tokens s) i) as [t|] eqn:N1.
        + exists (t_start t). split; [reflexivity|]. right. split; [exact Z|]. exists t. now split.
        + apply nth_error_None in N1. lia. }
    exists (p :: ps). split; [cbn [length]; now rewrite L|]. split.
    + intros [|n] j q Q; cbn [nth_error] in Q.
      * injection Q as <- <-. exists p. split; [reflexivity|exact D].
      * exact (A n j q Q).
    + cbn [print_context]. rewrite P. cbn [obind]. rewrite E. reflexivity.
Qed.
Lemma print_context_fails : forall c s i r, sc_pos s <> 0 -> In (i, r) c -> length (sc_tokens s) <= i ->
  print_context c s = Raise IndexErr.
Proof.
  induction c as [|[j q] c IH]; intros s i r Z I L; [destruct I|]. cbn [print_context].
  assert (X := Z). apply Nat.eqb_neq in X. unfold prev_char_pos at 1. rewrite X.
  destruct I as [I | I].
  - injection I as -> ->. apply nth_error_None in L. rewrite L. reflexivity.
  - destruct (nth_error (sc_tokens s) j); [|reflexivity]. cbn [obind]. rewrite (IH s i r Z I L). reflexivity.
Qed.
Lemma last_tokens_spec : forall s, exists earlier, sc_tokens s = earlier ++ last_tokens s /\
  length (last_tokens s) = min 10 (length (sc_tokens s)).
Proof.
  intros s. exists (firstn (length (sc_tokens s) - 10) (sc_tokens s)). unfold last_tokens.
  rewrite firstn_skipn. split; [reflexivity|]. rewrite skipn_length. lia.
Qed.
