(** The round trip of a formatted text, and the texts that are misread. *)
From Coq Require Import String Ascii List NArith ZArith Bool Lia ZifyBool ZifyN ZifyNat.
From Verif Require Import PyBase PyFacts RegexModel RegexFacts FoldModel ScanModel FormatModel ReadModel ParseModel
  FoldSpec FoldProofs FoldProofs2 ScanFacts ScanSpec FormatSpec ScanProofs ScanProofs2 ScanProofs3 TextProofs TextProofs2
  FormatProofs FormatProofs2 FormatProofs3.
Import ListNotations.
Open Scope nat_scope.

Lemma starts_ci_prefix w x s : starts_with (w ++ x) (lower s) = true -> starts_ci w s.
Proof. intros H. apply starts_ci_with in H. eapply starts_ci_tail; eauto. Qed.
Lemma plain_char g c : is_space c = false -> ~ In c (u "[]{}""#$',_") -> plain_first g c = true.
Proof.
  intros Hs H. unfold plain_first, ns. rewrite Hs. cbn [negb andb]. unfold not_in.
  assert (forall l, (forall x, In x l -> In x (u "[]{}""#$',_")) -> negb (existsb (N.eqb c) l) = true) as K.
  { intros l Hl. apply negb_true_iff. apply not_true_iff_false. intros E. apply existsb_exists in E.
    destruct E as (x & Hx & E). apply N.eqb_eq in E. subst x. apply H. now apply Hl. }
  destruct g; apply K; intros x Hx; cbn in Hx |- *; intuition.
Qed.
Lemma plain_char2 g c : is_space c = false -> ~ In c (u "[]{},") -> plain_next g c = true.
Proof.
  intros Hs H. unfold plain_next, ns. rewrite Hs. cbn [negb andb]. unfold not_in.
  assert (forall l, (forall x, In x l -> In x (u "[]{},")) -> negb (existsb (N.eqb c) l) = true) as K.
  { intros l Hl. apply negb_true_iff. apply not_true_iff_false. intros E. apply existsb_exists in E.
    destruct E as (x & Hx & E). apply N.eqb_eq in E. subst x. apply H. now apply Hl. }
  destruct g; try reflexivity; apply K; intros x Hx; cbn in Hx |- *; intuition.
Qed.
Lemma length_neq {A} (a b : list A) : length a <> length b -> a <> b.
Proof. congruence. Qed.
Lemma field_cr p s maxout o : fold_step maxout s = Ret o -> prefix_step o = Ret p -> ~ In CR s -> ~ In CR p.
Proof.
  intros Eo Ep H Hp. destruct (text_field_spec maxout s) as (o' & p' & E1 & E2 & _ & _ & Hc).
  rewrite Eo in E1. injection E1 as <-. rewrite Ep in E2. injection E2 as <-.
  destruct (Hc _ Hp) as [Hc1|[Hc1|[Hc1|Hc1]]]; [tauto|cbn in Hc1; intuition discriminate|discriminate|discriminate].
Qed.

Lemma format_read g b maxout req s f t w : format_string g maxout req s = Ret f -> readable b s f -> closes g t ->
  Forall skippable w -> read_value g b (w ++ f ++ t) (VStr s) t.
Proof.
  intros E (R1 & R2 & R3 & R4) Ht Hw.
  pose proof (choose_spec g maxout req s) as [A _]. cbv zeta in A. unfold format_string in E.
  destruct (choose req (allowed g maxout s)) as [q|].
  2:{ injection E as <-. destruct (R1 eq_refl) as (Hsp & Hst & Hlp). cbn [admissible] in A.
    destruct A as (Hne & _ & _ & Hnp & Hfst & Hda & Hsv & Hgl).
    assert (forall c, In c s -> ~ In c (u "[]{},""'")) as Hch.
    { intros c Hc Hx. apply (Hnp c); [|exact Hc]. unfold never_plain. rewrite !in_app_iff. cbn in Hx |- *. unfold QS, QD. tauto. }
    apply read_value_blanks; [exact Hw| |].
    - destruct s as [|c s]; [congruence|]. cbn. apply N.eqb_neq. intros ->. apply (Hfst 59%N s eq_refl). cbn. tauto.
    - destruct s as [|c s]; [congruence|]. apply read_plain; try assumption.
      + apply plain_char; [apply Hsp; now left|]. cbn [hd]. intros Hx.
        assert (~ In c (u "[]{},""'")) as H1 by (apply Hch; now left). assert (~ In c (u "_$#;(")) as H2 by now apply (Hfst c s).
        cbn in Hx, H1, H2. tauto.
      + cbn [tl]. apply Forall_forall. intros d Hd. apply plain_char2; [apply Hsp; now right|].
        assert (~ In d (u "[]{},""'")) as H1 by (apply Hch; now right). intros Hx. apply H1. cbn in Hx |- *. tauto.
      + now apply closes_follows.
      + unfold reserved_start. rewrite !orb_false_iff. repeat split; apply not_true_iff_false; intros H.
        * apply Hsv. now apply (starts_ci_prefix (u "save") (u "_")).
        * apply Hgl. now apply (starts_ci_prefix (u "global") (u "_")).
        * apply Hst. now apply starts_ci_with.
        * apply Hda. now apply (starts_ci_prefix (u "data") (u "_")).
      + apply stripstring_unquoted; intros H; apply (Hch _ H); cbn; tauto. }
  destruct q as [|a [|b' [|c [|x y]]]]; cbn [admissible] in A; try tauto.
  - destruct A as (Hq & _ & Hn & Hi). assert (f = [a] ++ s ++ [a]) as Ef by (destruct Hq as [->| ->]; cbn in E; injection E as <-; reflexivity).
    destruct (R2 a Hq Ef) as [Hc1 Hc2]. subst f. rewrite <- !app_assoc. apply read_value_blanks; [exact Hw|destruct Hq as [->| ->]; reflexivity|].
    apply read_quoted; [exact Hq|now apply quoted_excl|exact Ht].
  - destruct A as [-> ->].
    destruct (text_field_spec maxout s) as (o & p & Eo & Ep & E2 & Hn & _).
    assert (text_field maxout s = Ret f) as E3 by (cbn in E; exact E). assert (f = [NL; SC] ++ p ++ [NL; SC]) as -> by congruence. clear E E3.
    pose proof (R4 p eq_refl) as Hok. assert (~ In CR p) as Hcr by (eapply field_cr; eauto; apply Hok).
    apply read_value_blanks; [exact Hw|reflexivity|].
    assert (VStr s = VStr (stripextras ([NL; SC] ++ p ++ [NL; SC]))) as ->.
    { f_equal. symmetry. etransitivity; [apply stripextras_field|]. rewrite drop_cr_none.
      - eapply undo_protocols; eauto.
      - intros x ->. apply Hcr. apply in_or_app. right. now left. }
    apply read_field_value.
    assert (([NL; SC] ++ p ++ [NL; SC]) ++ t = [NL; SC] ++ p ++ [NL; SC] ++ t) as -> by (rewrite <- !app_assoc; reflexivity).
    apply field_kept; [exact Hcr|exact Hn|apply Hok].
  - destruct A as (Hg & <- & <- & Hq).
    assert (f = [a; a; a] ++ s ++ [a; a; a]) as Ef by (destruct Hq as [->| ->]; cbn in E; injection E as <-; reflexivity).
    pose proof (R3 a Hq Ef) as Hok. subst f. rewrite <- !app_assoc. apply read_value_blanks; [exact Hw|destruct Hq as [->| ->]; reflexivity|].
    apply read_triple; assumption.
Qed.

(** ** Misread texts *)
Lemma scan_stuck g restrict s : best_match g (accepted g restrict) s None = None -> scan g restrict s = Raise SyntaxErr.
Proof. intros H. unfold scan. destruct (length s); cbn [scan_go]; now rewrite H. Qed.
Lemma stop_misread g b s t w restrict : value_place g b restrict -> starts_ci (u "stop_") s -> Forall skippable w ->
  scan g restrict (w ++ s ++ t) = Raise SyntaxErr.
Proof.
  intros Hp Hs Hw. destruct (place_no_scline _ _ _ Hp) as [Hne Hsc].
  destruct Hs as (x & y & -> & Hx).
  assert (exists c x', x = c :: x' /\ (c = 115 \/ c = 83)%N) as (c & x' & -> & Hc).
  { destruct x as [|c x']; [discriminate|]. exists c, x'. split; [reflexivity|]. cbn in Hx. injection Hx as Hx _.
    unfold lower_char in Hx. destruct ((65 <=? c) && (c <=? 90))%N eqn:E; lia. }
  rewrite scan_blanks; [|exact Hne|exact Hsc|exact Hw|destruct Hc as [->| ->]; reflexivity].
  apply scan_stuck. rewrite <- app_assoc. set (z := y ++ t).
  assert (lower ((c :: x') ++ z) = u "stop_" ++ lower z) as Hlow by (rewrite <- Hx; unfold lower; apply map_app).
  assert (reserved_start ((c :: x') ++ z) = true) as Hr.
  { unfold reserved_start. rewrite Hlow. reflexivity. }
  destruct (best_match _ _ _ None) as [[[tk m] r]|] eqn:E; [|reflexivity]. exfalso. apply best_some in E.
  destruct E as (bf & af & Ea & M & _). assert (In tk (accepted g restrict)) as Hi by (rewrite Ea; apply in_or_app; right; now left).
  apply context_In in Hi; [|exact (proj1 Hp)]. destruct Hi as [Hpat Hi]. unfold matches in M.
  destruct (tok_eq_dec tk Value1) as [->|N1].
  { assert (forall q ex, q = sq \/ q = dq -> re_match (re_quoted1 q ex) ((c :: x') ++ z) = None) as HQ.
    { intros q ex [->| ->]; apply re_none; try reflexivity; destruct Hc as [->| ->]; reflexivity. }
    destruct g; cbn [tok_re] in M; rewrite ?re_alt in M; rewrite re_plain_match in M; rewrite Hr in M;
      rewrite ?re_alt, ?HQ in M by tauto; discriminate. }
  destruct (tok_eq_dec tk End) as [->|N2].
  { assert (In 115%N [c] \/ c = 83%N) as _ by (destruct Hc as [->| ->]; cbn; tauto).
    unfold re_match in M. cbn [tok_re rmatch] in M. destruct x' as [|d x']; [discriminate|]. cbn in M. discriminate. }
  destruct (tok_eq_dec tk SaveHeading) as [->|N3].
  { cbn [tok_re] in M. rewrite re_word_plus in M by words. rewrite Hlow in M. discriminate. }
  destruct (tok_eq_dec tk SaveEnd) as [->|N4].
  { cbn [tok_re] in M. rewrite re_word in M by words. rewrite Hlow in M. discriminate. }
  cbn [app] in M. rewrite re_none in M; [discriminate| |];
    repeat (destruct Hi as [<-|Hi]; [try congruence; destruct g; try reflexivity; destruct Hc as [->| ->]; reflexivity|]); destruct Hi.
Qed.
Lemma loop_misread g s t w restrict : value_context g restrict -> In LBlock restrict -> lower s = u "loop_" -> closes g t -> Forall skippable w ->
  scan g restrict (w ++ s ++ t) = Ret (LBlock, s, t).
Proof.
  intros Hctx Hl Hs Ht Hw. pose proof (context_nonempty _ _ Hctx) as Hne. pose proof (context_no_scline _ _ Hctx) as Hsc.
  assert (length s = 5) as Hlen by (rewrite <- (lower_length s), Hs; reflexivity).
  destruct s as [|c s]; [discriminate|].
  assert (c = 108 \/ c = 76)%N as Hc.
  { cbn in Hs. injection Hs as Hs _. unfold lower_char in Hs. destruct ((65 <=? c) && (c <=? 90))%N eqn:E; lia. }
  rewrite scan_blanks; [|exact Hne|exact Hsc|exact Hw|destruct Hc as [->| ->]; reflexivity].
  apply scan_first; [|reflexivity]. apply best_wins.
  assert (matches g LBlock ((c :: s) ++ t) (c :: s) t) as M.
  { unfold matches. cbn [tok_re]. rewrite re_word by words. unfold lower. rewrite map_app. fold (lower (c :: s)). rewrite Hs.
    change (starts_with (map lower_char (u "LOOP_")) (u "loop_" ++ map lower_char t)) with true. cbn iota.
    change (length (u "LOOP_")) with 5. rewrite <- Hlen. rewrite firstn_exact, skipn_app, skipn_all, Nat.sub_diag. reflexivity. }
  assert (exists bf af, patterns g = bf ++ LBlock :: af /\ (forall x, In x bf -> In x [Colon; Comma; Ign1; Ign2])) as (bf & af & Ep & Hbf).
  { destruct g; [exists [Ign1; Ign2]|exists [Ign1; Ign2]|exists [Colon; Ign1; Ign2]|exists [Colon; Comma; Ign1; Ign2]];
      eexists; (split; [reflexivity|]); cbn; tauto. }
  set (keep := fun t0 => tmem t0 restrict || ignored t0).
  assert (accepted g restrict = filter keep (patterns g)) as Ea by (unfold accepted; destruct restrict; [congruence|reflexivity]).
  rewrite Ea, Ep, filter_mid by (unfold keep; apply orb_true_iff; left; now apply tmem_In).
  exists (filter keep bf), (filter keep af). split; [reflexivity|]. split; [exact M|]. split.
  - intros t' m' r' Hi M'. exfalso. apply filter_In in Hi. destruct Hi as [Hi _]. apply Hbf in Hi. unfold matches in M'. cbn [app] in M'.
    rewrite re_none in M'; [discriminate| |];
      repeat (destruct Hi as [<-|Hi]; [try reflexivity; destruct Hc as [->| ->]; reflexivity|]); destruct Hi.
  - intros t' m' r' Hi M'. assert (In t' (accepted g restrict)) as Hi2.
    { rewrite Ea, Ep, filter_app. apply in_or_app. right. apply filter_In in Hi. apply filter_In. split; [now right|tauto]. }
    apply context_In in Hi2; [|exact Hctx]. destruct Hi2 as [_ Hi2]. unfold matches in M'. cbn [app] in M'.
    destruct (tok_eq_dec t' End) as [->|N1]; [apply end_match in M'; subst; cbn; lia|].
    destruct (tok_eq_dec t' LBlock) as [->|N2]; [unfold matches in M; cbn [app] in M; rewrite M in M'; injection M' as <- _; lia|].
    destruct (tok_eq_dec t' Value1) as [->|N3].
    + assert (forall q ex, q = sq \/ q = dq -> re_match (re_quoted1 q ex) (c :: s ++ t) = None) as HQ.
      { intros q ex [->| ->]; apply re_none; try reflexivity; destruct Hc as [->| ->]; reflexivity. }
      assert (re_match (re_plain g) (c :: s ++ t) = Some (m', r')) as MP.
      { destruct g; cbn [tok_re] in M'; rewrite ?re_alt, ?HQ in M' by tauto; try exact M';
          destruct (re_match (re_plain _) _); try exact M'; discriminate. }
      rewrite re_plain_match in MP. destruct (reserved_start _); [discriminate|]. destruct (plain_first g c); [|discriminate].
      injection MP as <- _. cbn [length]. apply le_n_S. apply closes_follows in Ht.
      assert (length (fst (span (plain_next g) (s ++ t))) <= length s) as L; [|exact L].
      clear - Ht. induction s as [|d s IH].
      * destruct t as [|e t]; [cbn; lia|]. cbn in Ht |- *. rewrite Ht. cbn. lia.
      * cbn [app span]. destruct (plain_next g d); [|cbn; lia]. destruct (span (plain_next g) (s ++ t)); cbn in *. lia.
    + exfalso. rewrite re_none in M'; [discriminate| |];
        repeat (destruct Hi2 as [<-|Hi2]; [try congruence; destruct g; try reflexivity; destruct Hc as [->| ->]; reflexivity|]); destruct Hi2.
Qed.

(** Removing the protocols never lengthens a text. *)
Lemma re_remove_short r s : forall k, length (re_remove r k s) <= length s.
Proof.
  induction s as [|c s IH]; intros k; [cbn; lia|]. cbn [re_remove]. destruct k as [|k]; [|specialize (IH k); cbn; lia].
  destruct (re_match r (c :: s)) as [[[|d m] x]|]; cbn [length]; [specialize (IH 0)|specialize (IH (length m))|specialize (IH 0)]; lia.
Qed.
Lemma unfold_length s : length (remove_line_folding s) <= length s.
Proof. unfold remove_line_folding. destruct (re_match _ s); [apply re_remove_short|lia]. Qed.
Lemma unfold_header_length bl rest s : fold_header bl rest s -> length (remove_line_folding s) < length s.
Proof.
  intros [-> Hb]. unfold remove_line_folding. rewrite header_match_full by exact Hb. cbn [re_remove]. rewrite re_match_mark.
  cbn [mark]. change (bslash =? bslash)%N with true. cbn iota.
  assert (snd (span isb (bl ++ NL :: rest)) = NL :: rest /\ fst (span isb (bl ++ NL :: rest)) = bl) as [E1 E2].
  { rewrite span_prefix; [split; reflexivity| |reflexivity]. eapply Forall_impl; [|exact Hb].
    intros c Hc. unfold isb, blank_chars. cbn. unfold blank in Hc. lia. }
  rewrite E1, E2. change (NL =? nl)%N with true. change (BS =? bslash)%N with true. cbn iota. cbn [length].
  match goal with |- length (re_remove _ ?k ?x) < _ => pose proof (re_remove_short re_fold_mark x k) end. lia.
Qed.
Lemma replace_length pat rep s : length rep <= length pat -> forall k, length (replace_go pat rep k s) <= length s - k + 0.
Proof.
  intros Hp. induction s as [|c s IH]; intros k; [cbn; lia|]. cbn [replace_go]. destruct k as [|k]; [|specialize (IH k); cbn [length]; lia].
  destruct (starts_with pat (c :: s)) eqn:E.
  - rewrite app_length. specialize (IH (length pat - 1)). apply starts_with_spec in E. destruct E as [z E].
    apply (f_equal (@length _)) in E. rewrite app_length in E. cbn [length] in *. lia.
  - specialize (IH 0). cbn [length]. lia.
Qed.
Lemma chr_star_intro p m t : Forall (fun c => p c = true) m -> In (m, t) (chr_star p (m ++ t)).
Proof.
  induction 1 as [|c m Hc _ IH].
  - destruct t as [|d t]; cbn; [now left|]. destruct (p d); [apply in_or_app; right; now left|now left].
  - cbn. rewrite Hc. apply in_or_app. left. change (c :: m, t) with (pre [c] (m, t)). now apply in_map.
Qed.
Lemma seq_intro a b m1 m2 s r t : In (m1, r) (rmatch a s) -> In (m2, t) (rmatch b r) -> In (m1 ++ m2, t) (rmatch (RSeq a b) s).
Proof.
  intros H1 H2. rewrite rmatch_seq. apply in_flat_map. exists (m1, r). split; [exact H1|]. cbn [fst snd].
  change (m1 ++ m2, t) with (pre m1 (m2, t)). now apply in_map.
Qed.
Lemma chr_intro p c t : p c = true -> In ([c], t) (rmatch (RChr p) (c :: t)).
Proof. intros H. cbn. rewrite H. now left. Qed.
Lemma not_existsb c l : ~ In c l -> existsb (N.eqb c) l = false.
Proof. intros H. apply not_true_iff_false. intros E. apply existsb_exists in E. destruct E as (x & Hx & E). apply N.eqb_eq in E. now subst. Qed.
Lemma prefix_header_matches s : prefix_header s -> re_match2 re_prefix re_prefix_end s <> None.
Proof.
  intros (c & p & bs & bl & rest & -> & Hc1 & Hc2 & Hp & Hn & Hb & Hbs & Hbl).
  destruct p as [|d p]; [congruence|]. unfold re_match2.
  assert (In ((c :: d :: p), bs ++ bl ++ NL :: rest) (rmatch re_prefix ((c :: d :: p) ++ bs ++ bl ++ NL :: rest))) as H1.
  { unfold re_prefix, none_of, rplus. change (c :: d :: p) with ([c] ++ (d :: p)) at 1.
    eapply seq_intro; [apply chr_intro|].
    - apply negb_true_iff, not_existsb. cbn. unfold semi, nl, SC, NL in *. intuition congruence.
    - change (d :: p) with ([d] ++ p) at 1. eapply seq_intro; [apply chr_intro|].
      + apply negb_true_iff, not_existsb. cbn. cbn in Hn, Hb. unfold bslash, nl, BS, NL in *. intuition.
      + rewrite rmatch_star_chr. apply chr_star_intro. apply Forall_forall. intros x Hx. apply negb_true_iff, not_existsb.
        intros [H|[H|[]]]; subst x; [apply Hn|apply Hb]; now right. }
  assert (In (bs ++ bl ++ [NL], rest) (rmatch re_prefix_end (bs ++ bl ++ NL :: rest))) as H2.
  { unfold re_prefix_end. cbn [rseq]. eapply seq_intro.
    - unfold r12. rewrite rmatch_alt. apply in_or_app. destruct Hbs as [->| ->].
      + right. apply chr_intro. reflexivity.
      + left. change [BS; BS] with ([BS] ++ [BS]) at 1. unfold is. eapply seq_intro; [apply chr_intro; reflexivity|]. apply chr_intro. reflexivity.
    - eapply seq_intro.
      + unfold one_of. rewrite rmatch_star_chr. apply chr_star_intro. eapply Forall_impl; [|exact Hbl].
        intros x Hx. cbn. unfold blank in Hx. lia.
      + unfold is. apply chr_intro. reflexivity. }
  intros E. match type of E with hd_error ?l = None => assert (In (c :: d :: p, bs ++ bl ++ [NL], rest) l) as Hi end.
  { apply in_flat_map. exists (c :: d :: p, bs ++ bl ++ NL :: rest). split; [exact H1|]. cbn [fst snd].
    apply in_map_iff. exists (bs ++ bl ++ [NL], rest). split; [reflexivity|exact H2]. }
  destruct (flat_map _ _); [destruct Hi|discriminate].
Qed.
Lemma unprefix_length s : length (remove_line_prefix s) <= length s /\ (prefix_header s -> length (remove_line_prefix s) < length s).
Proof.
  unfold remove_line_prefix. destruct (re_match2 re_prefix re_prefix_end s) as [[[p f] r]|] eqn:E.
  2:{ split; [lia|]. intros H. exfalso. now apply (prefix_header_matches s). }
  apply prefix_header_spec in E. destruct E as (_ & -> & Hp & Hf & Hf3).
  pose proof (replace_length (nl :: p) [nl] (nl :: r) ltac:(cbn; lia) 0) as L. fold (py_replace (nl :: p) [nl] (nl :: r)) in L. cbn [length] in L.
  rewrite !app_length. destruct (starts_with [bslash; bslash] f); [specialize (Hf3 eq_refl); cbn [length]; lia|].
  rewrite skipn_length. lia.
Qed.
Lemma fold_header_plain bl rest s : fold_header bl rest s -> ~ prefix_header s.
Proof.
  intros [-> Hb] (c & p & bs & bl' & r & E & _ & _ & Hp & Hn & Hbs' & Hbs & _).
  destruct p as [|d p]; [congruence|]. cbn in E. injection E as <- E.
  assert (exists k, bs ++ bl' ++ NL :: r = BS :: k) as [k Ek] by (destruct Hbs as [->| ->]; cbn; eauto).
  rewrite Ek in E. change (d :: p ++ BS :: k) with ((d :: p) ++ BS :: k) in E.
  assert (forall x y z w, ~ In BS y -> ~ In NL x -> Forall blank y -> y ++ NL :: z = x ++ BS :: w -> False) as K.
  { clear. intros x. induction x as [|a x IH]; intros y z w H1 H2 H3 H.
    - destruct y as [|e y]; cbn in H; [discriminate|]. injection H as -> _. apply H1. now left.
    - destruct y as [|e y]; cbn in H; injection H as H0 H; [apply H2; now left|].
      apply (IH y z w); [intros X; apply H1; now right|intros X; apply H2; now right|now apply Forall_cons_iff in H3|exact H]. }
  eapply K; [|exact Hn|exact Hb|exact E]. intros H. rewrite Forall_forall in Hb. apply Hb in H. unfold blank in H. unfold BS in H. lia.
Qed.

(** A text written as it is between semicolons is misread exactly if it starts
    like a folded or prefixed one or has a line taken for a comment. *)
Lemma verbatim_read g b s t w : ~ In CR s -> no_terminator s -> Forall skippable w ->
  exists v, read_value g b (w ++ [NL; SC] ++ s ++ [NL; SC] ++ t) (VStr v) t
  /\ (v = s <-> text_ok s s) /\ (v <> s -> length v < length s).
Proof.
  intros Hcr Hn Hw. destruct (field_exact g s t Hcr Hn) as (l0 & ls & Es & Hls & Hr & Hk).
  set (x := join_lines (l0 :: kept ls)) in *.
  assert (~ In CR x) as Hx.
  { assert (forall c, In c (join_lines (l0 :: kept ls)) -> In c (join_lines (l0 :: ls))) as K.
    { clear. revert l0. induction ls as [|l ls IH]; intros l0 c; [tauto|]. cbn [kept]. destruct (lost l ls) eqn:E.
      - intros H. apply IH in H. assert (ls <> []) as Hne by (destruct ls; [destruct l; discriminate|discriminate]).
        rewrite (join_cons l0 ls Hne) in H. rewrite (join_cons l0) by discriminate. rewrite (join_cons l ls Hne).
        rewrite !in_app_iff in *. cbn [In] in *. rewrite in_app_iff. cbn [In]. tauto.
      - rewrite !(join_cons l0) by discriminate. rewrite !in_app_iff. cbn [In]. intros [H|[H|H]]; [tauto|tauto|]. apply IH in H. tauto. }
    intros H. apply Hcr. rewrite Es. now apply K. }
  exists (remove_line_folding (remove_line_prefix x)).
  assert (stripextras ([NL; SC] ++ x ++ [NL; SC]) = remove_line_folding (remove_line_prefix x)) as Ex.
  { etransitivity; [apply stripextras_field|]. rewrite drop_cr_none; [reflexivity|]. intros y E. apply Hx. rewrite E. apply in_or_app. right. now left. }
  split; [|].
  { apply read_value_blanks; [exact Hw|reflexivity|]. rewrite <- Ex. apply read_field_value. exact Hr. }
  pose proof (unfold_length (remove_line_prefix x)) as L1. pose proof (proj1 (unprefix_length x)) as L2.
  destruct (list_eq_dec (list_eq_dec N.eq_dec) (kept ls) ls) as [K|K].
  2:{ assert (length x < length s) as L3 by (rewrite Es; now apply hash_shorter).
    assert (length (remove_line_folding (remove_line_prefix x)) < length s) as L4 by lia. split; [|intros _; exact L4].
    split; [intros E; rewrite E in L4; lia|]. intros (_ & _ & _ & _ & H). tauto. }
  assert (x = s) as Exs by (unfold x; rewrite K; now symmetry). rewrite Exs in *.
  assert (~ hash_line s) as Hh by tauto.
  destruct (re_match re_fold_header s) as [y|] eqn:Eh.
  { assert (re_match re_fold_header s <> None) as H by congruence. apply header_spec in H. destruct H as (bl & rest & H).
    rewrite (no_prefix_header s) by (eapply fold_header_plain; eauto). pose proof (unfold_header_length _ _ _ H) as L3.
    split; [|intros _; exact L3]. split; [intros E; rewrite E in L3; lia|]. intros (_ & F & _). exfalso. now apply (F bl rest). }
  assert (forall bl rest, ~ fold_header bl rest s) as Hf.
  { intros bl rest H. assert (re_match re_fold_header s <> None) as H1 by (apply header_spec; eauto). congruence. }
  destruct (re_match2 re_prefix re_prefix_end s) as [[[p f] r]|] eqn:Ep.
  - apply prefix_header_spec in Ep. destruct Ep as [Hp _]. pose proof (proj2 (unprefix_length s) Hp) as L3.
    assert (length (remove_line_folding (remove_line_prefix s)) < length s) as L4 by lia. split; [|intros _; exact L4].
    split; [intros E; rewrite E in L4; lia|]. intros (_ & _ & P & _). exfalso. now apply P.
  - assert (~ prefix_header s) as Hp by (intros H; now apply (prefix_header_matches s)).
    rewrite (no_prefix_header s Hp), (unfold_plain s Hf). split; [|congruence]. split; [|reflexivity].
    intros _. repeat split; try assumption; [tauto|congruence].
Qed.
