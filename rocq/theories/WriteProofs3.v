(** What printing the items of a block writes. *)
From Coq Require Import String Ascii List NArith ZArith Bool Lia ZifyBool ZifyN ZifyNat Permutation.
From Verif Require Import PyBase PyFacts RegexModel FoldModel StarBlockModel LoopModel ReadModel ScanModel FormatModel WriteModel
  LoopSpec ReadSpec FoldSpec ScanSpec FormatSpec LoopProofs FormatProofs FormatProofs2 WriteSpec WriteProofs WriteProofs2.
Import ListNotations.
Open Scope nat_scope.

Lemma blanks_nl : blanks_only [nl].
Proof. constructor; [now right|constructor]. Qed.

(** ** Runs of pieces, built at the end *)
Definition last_piece (ps : list piece) : option piece := match rev ps with p :: _ => Some p | [] => None end.
Lemma last_piece_snoc ps p : last_piece (ps ++ [p]) = Some p.
Proof. unfold last_piece. now rewrite rev_app_distr. Qed.

Inductive run : list piece -> str -> Prop :=
| run_nil : run [] []
| run_snoc ps y w p : run ps y -> blanks_only w -> gap (last_piece ps) p w -> run (ps ++ [p]) (y ++ w ++ ptext p).

Lemma run_laid ps y : run ps y -> forall qs r, laid_after (last_piece ps) qs r -> laid_after None (ps ++ qs) (y ++ r).
Proof.
  induction 1 as [|ps y w p H IH Hw Hg]; intros qs r Hr; [exact Hr|].
  rewrite last_piece_snoc in Hr. rewrite <- !app_assoc. cbn [app]. apply IH.
  exists w, r. auto.
Qed.

(** The sink after [ps] and then the blanks [z]. *)
Definition At (k : sink) (ps : list piece) (z : str) : Prop :=
  exists y, k_out k = y ++ z /\ run ps y /\ blanks_only z.
Lemma At_laid k ps z : At k ps z -> laid_after None ps (k_out k).
Proof.
  intros (y & -> & H & Hz). rewrite <- (app_nil_r ps). now apply run_laid.
Qed.
Lemma At_piece k k' ps z w p : At k ps z -> k_out k' = k_out k ++ w ++ ptext p -> blanks_only w ->
  gap (last_piece ps) p (z ++ w) -> At k' (ps ++ [p]) [].
Proof.
  intros (y & E & H & Hz) E' Hw Hg. exists (y ++ (z ++ w) ++ ptext p). split; [rewrite E', E, app_nil_r, <- !app_assoc; reflexivity|].
  split; [|constructor]. constructor; auto. now apply blanks_app.
Qed.
Lemma At_blank k k' ps z w : At k ps z -> k_out k' = k_out k ++ w -> blanks_only w -> At k' ps (z ++ w).
Proof.
  intros (y & E & H & Hz) E' Hw. exists y. split; [now rewrite E', E, <- app_assoc|]. split; [exact H|now apply blanks_app].
Qed.

(** ** Names *)
Definition good_name (t : str) : Prop := (exists r, t = 95%N :: r) /\ forall c, In c t -> ~ In c [32; 10; 9]%N.
Lemma good_nonempty t : good_name t -> t <> [].
Proof. intros [[r ->] _]. discriminate. Qed.
Lemma good_bare t : good_name t -> bare_end t.
Proof.
  intros [[r Hn] H]. destruct (last_char t) as [c|] eqn:E; [|apply last_char_nil in E; congruence]. exists c. split; [exact E|].
  now apply H, last_char_In.
Qed.

Section Print.
Variables (g : grammar) (maxout : Z) (hs : list hint).
(** Width and indents do not change from item to item. *)
Definition fit (k : sink) : Prop := k_width k = 80%Z /\ k_indent k = [0%Z].

Lemma names_print b indent names ts : Forall2 (fun n t => dget str_eqb n (b_true b) = Some t) names ts -> Forall good_name ts ->
  forall k ps z, At k ps z -> z <> [] -> fit k -> k_pos k = 1%Z -> exists k' z',
  format_names hs indent b names k = Ret k' /\ At k' (ps ++ map PName ts) z' /\ z' <> [] /\ fit k' /\ k_pos k' = 1%Z /\ k_tab k' = k_tab k.
Proof using.
  induction 1 as [|n t names ts Hn HF IH]; intros Hg k ps z HA Hz Hf Hp; cbn [format_names].
  - exists k, z. rewrite app_nil_r. auto 10.
  - apply Forall_cons_iff in Hg. destruct Hg as [Ht Hg]. rewrite Hn.
    set (ind := match h_pos (loop_hint hs n) with Some p => p | None => indent end).
    assert (exists k1 w1, write bare_args (spaces ind) k = Ret k1 /\ k_out k1 = k_out k ++ w1 /\ blanks_only w1 /\ fit k1 /\ k_tab k1 = k_tab k) as (k1 & w1 & E1 & O1 & B1 & F1 & T1).
    { destruct (spaces ind) as [|c s] eqn:Es.
      - destruct (write_empty k) as (k1 & E & O & T & W & I & P); [destruct Hf; lia|]. exists k1, []. rewrite app_nil_r.
        destruct Hf as [Hf1 Hf2]. split; [exact E|]. split; [exact O|]. split; [constructor|]. split; [split; congruence|exact T].
      - rewrite <- Es. destruct (write_text bare_args (spaces ind) k eq_refl ltac:(congruence)) as (k1 & w & E & O & B & T & W & _ & I & _).
        exists k1, (w ++ spaces ind). split; [exact E|]. split; [exact O|]. split; [apply blanks_app; [exact B|apply blanks_spaces]|].
        destruct Hf as [Hf1 Hf2]. split; [|exact T]. split; [congruence|]. now rewrite (I eq_refl eq_refl). }
    rewrite E1. cbn [obind].
    destruct (write_text bare_args t k1 eq_refl (good_nonempty t Ht)) as (k2 & w2 & E2 & O2 & B2 & T2 & W2 & _ & I2 & _).
    rewrite E2. cbn [obind].
    destruct (write_text bare_args [nl] k2 eq_refl ltac:(discriminate)) as (k3 & w3 & E3 & O3 & B3 & T3 & W3 & _ & I3 & _).
    rewrite E3. cbn [obind].
    assert (At k2 (ps ++ [PName t]) []) as A2.
    { eapply At_piece; [eapply At_blank; [exact HA|exact O1|exact B1]|exact O2|exact B2|]. left. destruct z; [congruence|discriminate]. }
    assert (At k3 (ps ++ [PName t]) ([] ++ w3 ++ [nl])) as A3.
    { eapply At_blank; [exact A2|exact O3|]. apply blanks_app; [exact B3|]. apply blanks_nl. }
    destruct (IH Hg k3 (ps ++ [PName t]) ([] ++ w3 ++ [nl])) as (k4 & z4 & E4 & A4 & Z4 & F4 & P4 & T4); auto.
    { cbn. now destruct w3. }
    { destruct F1. split; [congruence|]. rewrite (I3 eq_refl eq_refl), (I2 eq_refl eq_refl). assumption. }
    { apply (write_pos_nl bare_args [] k2 k3). exact E3. }
    exists k4, z4. rewrite <- app_assoc in A4. cbn [app map]. split; [exact E4|]. split; [exact A4|]. split; [exact Z4|]. split; [exact F4|]. split; [exact P4|congruence].
Qed.

(** ** Rows *)
(** Pending blanks are missing only when the line is full. *)
Definition ready (k : sink) (z : str) : Prop := z = [] -> (k_pos k > k_width k)%Z.
Definition requests : list delim := None :: map h_delim hs.
Definition is_val (v : value) (p : piece) : Prop :=
  exists f req, p = PVal v f /\ In req (requests) /\ prints g maxout req v f.
Lemma item_request n : In (hint_delim (item_hint hs n)) (requests).
Proof using.
  unfold item_hint. destruct (filter _ hs) as [|h l] eqn:E; [now left|]. right. apply in_map. assert (In h (h :: l)) as H by now left. rewrite <- E in H. now apply filter_In in H.
Qed.
Lemma loop_request n : In (hint_delim (loop_hint hs n)) (requests).
Proof using.
  unfold loop_hint. destruct (filter _ (rev hs)) as [|h l] eqn:E; [now left|]. right. apply in_map. assert (In h (h :: l)) as H by now left. rewrite <- E in H. apply filter_In in H. now apply in_rev.
Qed.

Lemma packet_item h v k ps z : In (hint_delim h) (requests) -> textual v -> At k ps z -> ready k z -> fit k ->
  (compound v = false -> z = [] -> ((0 < k_tab k)%Z /\ hint_col h <> 0%Z) \/ (exists q f, last_piece ps = Some (PVal q f) /\ compound q = true)) ->
  (z = [] -> exists q f, last_piece ps = Some (PVal q f)) ->
  exists k' p z', obind (format_packet_item g maxout h v k) (fun k => write delim_args [32%N] k) = Ret k'
  /\ is_val v p /\ At k' (ps ++ [p]) z' /\ ready k' z' /\ fit k' /\ k_tab k' = (if compound v then 0%Z else k_tab k).
Proof using.
  intros Hreq Ht HA Hr Hf Hs Hq.
  assert (exists k1 w f, format_packet_item g maxout h v k = Ret k1 /\ k_out k1 = k_out k ++ w ++ f /\ blanks_only w /\ prints g maxout (hint_delim h) v f
    /\ bare k1 /\ fit k1 /\ k_tab k1 = (if compound v then 0%Z else k_tab k) /\ gap (last_piece ps) (PVal v f) (z ++ w)) as (k1 & w & f & E & O & B & P & Hb & F & T & G).
  { destruct (compound v) eqn:Ec.
    - destruct (value_prints g maxout v Ht false h k) as (k1 & w & f & E & O & B & P & W & Hb & I & T & _ & V).
      exists k1, w, f. split; [destruct v; try discriminate Ec; exact E|]. split; [exact O|]. split; [exact B|]. split; [exact P|]. split; [exact Hb|].
      destruct Hf as [F1 F2]. split; [split; [congruence|rewrite I; [exact F2|rewrite F2; discriminate]]|]. split; [now rewrite Ec in T|].
      destruct z as [|c z]; [|left; discriminate]. right. right. destruct (Hq eq_refl) as (q & fq & ->). cbn [touching]. rewrite Ec. apply orb_true_r.
    - destruct v as [s| | | | |]; try discriminate Ec; try (inversion Ht; fail). cbn [format_packet_item].
      destruct (format_total g maxout (hint_delim h) s) as (f & Ef & Hne & Hb). rewrite Ef. cbn [obind].
      destruct (write_text (WArgs false false true false false false (hint_col h)) f k eq_refl Hne) as (k1 & w & E & O & B & T & W & L & I & _ & _ & _ & P & _).
      exists k1, w, f. split; [exact E|]. split; [exact O|]. split; [exact B|]. split; [exact Ef|]. split; [eapply bare_last; eauto|].
      destruct Hf as [F1 F2]. split; [split; [congruence|rewrite I by reflexivity; exact F2]|]. split; [exact T|].
      destruct z as [|c z]; [|left; discriminate]. destruct (Hs eq_refl eq_refl) as [[H1 H2]|(q & fq & E1 & E2)].
      + left. cbn. now apply P.
      + right. right. rewrite E1. cbn [touching]. now rewrite E2. }
  rewrite E. cbn [obind]. destruct (write_delim k1 Hb) as (k2 & z2 & E2 & O2 & B2 & T2 & W2 & R2).
  assert (k_indent k2 = k_indent k1) as I2 by (destruct (write_indent _ _ _ _ E2) as [x Ex]; exact Ex).
  exists k2, (PVal v f), ([] ++ z2). split; [exact E2|]. split; [now exists f, (hint_delim h)|]. split; [eapply At_blank; [eapply At_piece|exact O2|exact B2]; eauto|].
  split; [exact R2|]. destruct F. split; [split; congruence|congruence].
Qed.

(** Texts in a row are apart if tabs are in force, or if no two of them are
    neighbours. *)
Fixpoint alternating (prev_text : bool) (vs : list value) : Prop :=
  match vs with
  | [] => True
  | v :: vs' => (prev_text = true -> compound v = true) /\ alternating (negb (compound v)) vs'
  end.
Definition hint_ok (names : list str) : Prop := forall n, In n names -> hint_col (loop_hint hs n) <> 0%Z.

Lemma packet_print vs : Forall textual vs -> forall names k ps z prev, length names = length vs ->
  At k ps z -> ready k z -> fit k ->
  (Forall (fun v => compound v = false) vs /\ (0 < k_tab k)%Z /\ hint_ok names \/ alternating prev vs) ->
  (z = [] -> exists q f, last_piece ps = Some (PVal q f) /\ compound q = negb prev) ->
  exists k' qs z', format_packet g maxout hs names vs k = Ret k' /\ Forall2 (is_val) vs qs /\ At k' (ps ++ qs) z' /\ ready k' z' /\ fit k'
   /\ (Forall (fun v => compound v = false) vs -> k_tab k' = k_tab k).
Proof using.
  induction 1 as [|v vs Hv Hvs IH]; intros names k ps z prev L HA Hr Hf Hc Hq; cbn [format_packet].
  - exists k, [], z. rewrite app_nil_r. destruct names; [|discriminate]. repeat split; auto; apply Hf.
  - destruct names as [|n names]; [discriminate|].
    destruct (packet_item (loop_hint hs n) v k ps z (loop_request n) Hv HA Hr Hf) as (k1 & p & z1 & E1 & P1 & A1 & R1 & F1 & T1).
    { intros Ev Ez. destruct Hc as [(H1 & H2 & H3)|Hc]; [left; split; [exact H2|apply H3; now left]|]. right.
      destruct (Hq Ez) as (q & f & E & Eq). exists q, f. split; [exact E|]. destruct Hc as [Hc _].
      destruct prev; [rewrite (Hc eq_refl) in Ev; discriminate|exact Eq]. }
    { intros Ez. destruct (Hq Ez) as (q & f & E & _). eauto. }
    destruct (format_packet_item g maxout (loop_hint hs n) v k) as [k0|] eqn:E0; [|discriminate]. cbn [obind] in E1. cbn [format_packet]. rewrite E0. cbn [obind]. rewrite E1. cbn [obind].
    destruct (IH names k1 (ps ++ [p]) z1 (negb (compound v))) as (k2 & qs & z2 & E2 & P2 & A2 & R2 & F2 & T2); auto.
    { destruct Hc as [(H1 & H2 & H3)|[_ Hc]]; [left|right; exact Hc]. apply Forall_cons_iff in H1. destruct H1 as [H1 H1']. split; [exact H1'|].
      rewrite H1 in T1. split; [lia|]. intros m Hm. apply H3. now right. }
    { intros _. destruct P1 as (f & req & -> & _). exists v, f. rewrite last_piece_snoc, negb_involutive. split; reflexivity. }
    exists k2, (p :: qs), z2. split; [exact E2|]. split; [now constructor|]. rewrite <- app_assoc in A2. split; [exact A2|]. split; [exact R2|]. split; [exact F2|].
    intros Ha. apply Forall_cons_iff in Ha. destruct Ha as [Ha1 Ha2]. rewrite (T2 Ha2), T1, Ha1. reflexivity.
Qed.

Lemma packets_print rows : Forall (Forall textual) rows -> forall names k ps z first, Forall (fun r => length r = length names) rows ->
  At k ps z -> fit k -> (first = true -> z <> []) ->
  (Forall (Forall (fun v => compound v = false)) rows /\ (0 < k_tab k)%Z /\ hint_ok names \/ Forall (alternating false) rows) ->
  exists k' qs z', format_packets g maxout hs first names rows k = Ret k' /\ Forall2 (is_val) (concat rows) qs /\ At k' (ps ++ qs) z' /\ fit k'.
Proof using.
  induction 1 as [|r rows Hr Hrs IH]; intros names k ps z first L HA Hf Hz Hc; cbn [format_packets concat].
  - exists k, [], z. rewrite app_nil_r. repeat split; auto; apply Hf.
  - apply Forall_cons_iff in L. destruct L as [L Ls].
    assert (exists k0 z0, (if first then Ret k else write plain_args [nl] k) = Ret k0 /\ At k0 ps z0 /\ z0 <> [] /\ fit k0 /\ k_tab k0 = k_tab k) as (k0 & z0 & E0 & A0 & Z0 & F0 & T0).
    { destruct first; [exists k, z; auto|].
      destruct (write_text plain_args [nl] k eq_refl ltac:(discriminate)) as (k0 & w & E & O & B & T & W & _ & I & _).
      exists k0, (z ++ w ++ [nl]). split; [exact E|]. split; [eapply At_blank; [exact HA|exact O|apply blanks_app; [exact B|apply blanks_nl]]|].
      split; [destruct z; [now destruct w|discriminate]|]. destruct Hf. split; [split; [congruence|rewrite I by reflexivity; assumption]|exact T]. }
    rewrite E0. cbn [obind].
    destruct (packet_print r Hr names k0 ps z0 false) as (k1 & qs & z1 & E1 & P1 & A1 & _ & F1 & T1); auto.
    { intros ->. congruence. }
    { destruct Hc as [(H1 & H2 & H3)|Hc]; [left|right; now inversion Hc]. apply Forall_cons_iff in H1. split; [tauto|]. split; [lia|exact H3]. }
    { intros ->. congruence. }
    rewrite E1. cbn [obind].
    destruct (IH names k1 (ps ++ qs) z1 false) as (k2 & qs2 & z2 & E2 & P2 & A2 & F2); auto.
    { discriminate. }
    { destruct Hc as [(H1 & H2 & H3)|Hc]; [left|right; now inversion Hc]. apply Forall_cons_iff in H1. destruct H1 as [H1 H1']. split; [exact H1'|].
      rewrite (T1 H1). split; [lia|exact H3]. }
    exists k2, (qs ++ qs2), z2. split; [exact E2|]. split; [now apply Forall2_app|]. split; [rewrite app_assoc; exact A2|exact F2].
Qed.

(** ** Items *)
Definition hint_pos (h : hint) : Z := match h_pos h with Some p => p | None => (-1)%Z end.
(** Entries whose printed form can be told apart. *)
Definition distinct (e : item) : Prop :=
  match e with
  | Kv t v => good_name t /\ textual v /\
      match v with VDict _ => length t < 80 /\ (hint_pos (item_hint hs (lower t)) <= 0)%Z | _ => True end
  | Lp ts vs => Forall good_name ts /\ Forall textual vs
      /\ (Forall (fun v => compound v = false) vs /\ hint_ok (map lower ts)
          \/ forall rows, concat rows = vs -> Forall (fun r => length r = length ts) rows -> Forall (alternating false) rows)
  end.
Definition spells (e : item) (ps : list piece) : Prop :=
  match e with
  | Kv t v => exists p, ps = [PName t; p] /\ is_val v p
  | Lp ts vs => exists qs, ps = PLoop :: map PName ts ++ qs /\ Forall2 (is_val) vs qs
  end.

Lemma kv_print indent b n t v k ps z : n = lower t -> dget str_eqb n (b_true b) = Some t -> get_item n b = Ret v -> distinct (Kv t v) ->
  At k ps z -> fit k -> exists k' qs z', print_item g maxout hs indent b (ON n) k = Ret k' /\ spells (Kv t v) qs /\ At k' (ps ++ qs) z' /\ fit k'.
Proof using.
  intros Hn Ht Hg (Gt & Tv & Hd) HA Hf. cbn [print_item]. rewrite Hg. cbn [obind]. rewrite Ht.
  fold (hint_pos (item_hint hs n)). set (h := item_hint hs n) in *.
  set (col := match h_col h with Some c => _ | None => 40%Z end).
  destruct (write_text (WArgs false true false false false false (hint_pos h)) t (set_tab col k) eq_refl (good_nonempty t Gt))
    as (k1 & w1 & E1 & O1 & B1 & T1 & W1 & L1 & I1 & _ & _ & M1 & _).
  rewrite E1. cbn [obind]. destruct (M1 eq_refl) as [w1' Ew1]. specialize (I1 eq_refl eq_refl). cbn [set_tab k_out k_width k_indent] in O1, W1, I1.
  assert (At k1 (ps ++ [PName t]) []) as A1.
  { eapply At_piece; [exact HA|exact O1|exact B1|]. left. subst w1. destruct z; discriminate. }
  destruct (write_delim k1 (bare_last _ _ L1 (good_bare t Gt))) as (k2 & z2 & E2 & O2 & B2 & T2 & W2 & R2).
  rewrite E2. cbn [obind].
  assert (k_indent k2 = k_indent k1) as I2 by (destruct (write_indent _ _ _ _ E2) as [x Ex]; exact Ex).
  destruct Hf as [F1 F2].
  destruct (value_prints g maxout v Tv false h k2) as (k3 & w3 & f & E3 & O3 & B3 & P3 & W3 & _ & I3 & _ & _ & V3).
  exists k3, [PName t; PVal v f], []. split; [exact E3|]. split; [exists (PVal v f); split; [reflexivity|exists f, (hint_delim h); split; [reflexivity|split; [apply item_request|exact P3]]]|].
  split; [|split; [congruence|rewrite I3; rewrite I2, I1, F2; [reflexivity|discriminate]]].
  change [PName t; PVal v f] with ([PName t] ++ [PVal v f]). rewrite app_assoc. eapply At_piece; [eapply At_blank; [exact A1|exact O2|exact B2]|exact O3|exact B3|].
  rewrite last_piece_snoc. cbn [app]. destruct z2 as [|c z2]; [|left; discriminate]. cbn [app].
  specialize (R2 eq_refl). destruct v as [s|s| |l|l|d].
  1-5: destruct (V3 R2 I) as [X|X]; [left; exact X|right; left; exact X].
  exfalso. destruct Hd as [Hd1 Hd2]. rewrite <- Hn in Hd2. fold h in Hd2.
  assert (k_pos k1 = Z.of_nat (length t)) as P1.
  { rewrite (write_name_pos _ _ _ _ E1 Hd2).
    - unfold top_indent. cbn [set_tab k_indent]. rewrite F2. cbn. lia.
    - intros X. apply (proj2 Gt _ X). cbn. tauto. }
  assert (k_pos k2 = (k_pos k1 + 1)%Z) as P2.
  { revert E2. unfold write, delim_args. cbn [a_delim a_mustbreak a_canbreak a_startcol a_tab a_newindent a_unindent length andb negb].
    change (1 <? 1) with false. cbv iota zeta. rewrite !andb_false_r. cbn [andb]. cbv iota.
    change (-1 >? 0)%Z with false. cbn [andb]. cbv iota. rewrite ?andb_false_r. cbn [andb orb]. cbv iota.
    cbn [after_break]. change (32 =? nl)%N with false. cbv iota. intros E. injection E as <-. destruct (_ || _); reflexivity. }
  rewrite O2 in O3. clear - R2 P1 P2 F1 W1 W2 Hd1. assert (k_width k2 = 80%Z) by congruence. lia.
Qed.
End Print.
