(** Tokens of values. *)
From Coq Require Import String Ascii List NArith ZArith Bool Lia ZifyBool ZifyN ZifyNat.
From Verif Require Import PyBase PyFacts RegexModel RegexFacts ScanModel ScanFacts ScanSpec ScanProofs ScanProofs2.
Import ListNotations.
Open Scope nat_scope.

(** ** Prefix words *)
Lemma starts_with_app_stop w s t : (forall c, In c w -> match t with [] => True | d :: _ => lower_char d <> c end) ->
  starts_with w (lower (s ++ t)) = starts_with w (lower s).
Proof.
  revert s. induction w as [|c w IH]; intros s H; [reflexivity|].
  destruct s as [|x s].
  - destruct t as [|d t]; [reflexivity|]. cbn. specialize (H c (or_introl eq_refl)). cbn in H.
    apply andb_false_iff. left. apply N.eqb_neq. congruence.
  - cbn. f_equal. apply IH. intros e He. apply H. now right.
Qed.
Lemma plain_next_not_word g d w : plain_next g d = false -> Forall (fun c => ((97 <=? c) && (c <=? 122) || (c =? 95))%N = true) w ->
  forall c, In c w -> lower_char d <> c.
Proof.
  intros Hd Hw c Hc E. rewrite Forall_forall in Hw. specialize (Hw c Hc). subst c.
  unfold plain_next in Hd. apply andb_false_iff in Hd.
  assert (((65 <=? d) && (d <=? 90) || ((97 <=? d) && (d <=? 122)) || (d =? 95))%N = true) as Hl.
  { unfold lower_char in Hw. destruct ((65 <=? d) && (d <=? 90))%N; [reflexivity|]. cbn [orb]. exact Hw. }
  destruct Hd as [Hd|Hd].
  - unfold ns in Hd. apply negb_false_iff in Hd. unfold is_space in Hd. cbn [existsb] in Hd. lia.
  - destruct g; try discriminate; unfold not_in in Hd; apply negb_false_iff in Hd; cbn in Hd; lia.
Qed.
Definition follows (g : grammar) (t : str) : Prop := match t with [] => True | d :: _ => plain_next g d = false end.
Lemma word_follow g w s t : follows g t -> Forall (fun c => ((97 <=? c) && (c <=? 122) || (c =? 95))%N = true) w ->
  starts_with w (lower (s ++ t)) = starts_with w (lower s).
Proof.
  intros Ht Hw. apply starts_with_app_stop. intros c Hc. destruct t as [|d t]; [exact I|].
  eapply plain_next_not_word; eauto.
Qed.
Lemma reserved_follow g s t : follows g t -> reserved_start (s ++ t) = reserved_start s.
Proof. intros Ht. unfold reserved_start. rewrite !(word_follow g) by (try exact Ht; repeat constructor). reflexivity. Qed.

(** ** First characters of value tokens *)
Ltac first_char H :=
  repeat match type of H with
         | context [(?k =? ?c)%N] => is_var c; destruct (k =? c)%N eqn:?E; [apply N.eqb_eq in E; subst c; try discriminate|]
         end.
Lemma plain_others g t c s m r : plain_first g c = true ->
  In t (Ign1 :: Ign2 :: Value1 :: TripleQ :: SingleQ :: StartSc :: OSquare :: OCurl :: DataName :: Comma :: CSquare :: nil) ->
  In t (patterns g) -> matches g t (c :: s) m r -> t = Value1.
Proof.
  intros Hc Ht Hp M. destruct (tok_eq_dec t Value1) as [E|E]; [exact E|]. exfalso. unfold matches in M.
  assert (nullable (tok_re g t) = false) as Hnull
    by (destruct g; repeat (destruct Ht as [<-|Ht]; [try reflexivity; congruence|]); destruct Ht).
  destruct (first_ok (tok_re g t) c) eqn:F; [|rewrite (re_none _ _ _ Hnull F) in M; discriminate].
  assert (In c [32; 9; 10; 13; 35; 39; 34; 91; 123; 95; 93; 44]%N) as Hin.
  { destruct g; repeat (destruct Ht as [<-|Ht]; [|]); try (destruct Ht); try congruence;
      cbn [tok_re first_ok nullable rseq is one_of existsb rplus re_triple re_quoted2 sq dq andb orb] in F; cbn [In];
      unfold sq, dq in F; lia. }
  destruct g; repeat (destruct Hin as [<-|Hin]; [try discriminate Hc|]); try destruct Hin.
  all: cbn in Hc; repeat (destruct Ht as [<-|Ht]; [|]); try (destruct Ht); try congruence;
    try (cbn in F; discriminate); cbn in Hp; repeat (destruct Hp as [Hp|Hp]; [discriminate|]); try destruct Hp.
Qed.

(** ** Undelimited values *)
Lemma plain_value1 g c s t : plain_first g c = true -> Forall (fun d => plain_next g d = true) s -> follows g t ->
  reserved_start (c :: s) = false -> matches g Value1 (c :: s ++ t) (c :: s) t.
Proof.
  intros Hc Hs Ht Hr. unfold matches.
  assert (re_match (re_plain g) (c :: s ++ t) = Some (c :: s, t)) as H.
  { rewrite re_plain_match. change (c :: s ++ t) with ((c :: s) ++ t). rewrite (reserved_follow g) by exact Ht.
    rewrite Hr. cbn [app]. rewrite Hc, (span_prefix _ s t Hs); [reflexivity|]. destruct t; [exact I|exact Ht]. }
  destruct g; cbn [tok_re]; rewrite ?re_alt, H; reflexivity.
Qed.
Lemma context_nonempty g restrict : value_context g restrict -> restrict <> [].
Proof. intros [H _] ->. apply (H Value1). destruct g; cbn; tauto. Qed.
Lemma context_In g restrict t : value_context g restrict -> In t (accepted g restrict) ->
  In t (patterns g) /\ In t (Ign1 :: Ign2 :: Value1 :: TripleQ :: SingleQ :: StartSc :: OSquare :: OCurl ::
        LBlock :: DataName :: SaveHeading :: SaveEnd :: DataHeading :: End :: Comma :: CSquare :: nil).
Proof.
  intros Hc Ht. apply accepted_In in Ht; [|eapply context_nonempty, Hc]. destruct Ht as [Hp Hr]. split; [exact Hp|].
  destruct Hr as [Hr|Hr].
  - apply Hc in Hr. destruct g, Hr as [Hr|Hr]; cbn in *; tauto.
  - destruct t; try discriminate Hr; cbn; tauto.
Qed.
Lemma context_value g restrict t : value_context g restrict -> In t (value_tokens g) -> In t (accepted g restrict).
Proof.
  intros Hc Ht. apply accepted_In; [eapply context_nonempty, Hc|]. split.
  - destruct g; cbn in *; tauto.
  - left. now apply Hc.
Qed.
Lemma context_no_scline g restrict : value_context g restrict -> ~ In ScLine restrict.
Proof. intros [_ H] Hi. apply H in Hi. destruct g, Hi as [Hi|Hi]; cbn in Hi; intuition discriminate. Qed.
Lemma end_match s m r : re_match REnd s = Some (m, r) -> m = [].
Proof.
  unfold re_match. cbn [rmatch]. destruct s as [|c [|d s]]; intros H; cbn in H; try congruence.
  destruct (c =? 10)%N; cbn in H; congruence.
Qed.
Lemma lower_length s : length (lower s) = length s.
Proof. apply map_length. Qed.
Lemma starts_with_full w s : starts_with w s = true -> length w = length s -> w = s.
Proof.
  revert s. induction w as [|c w IH]; intros [|d s] H L; cbn in *; try discriminate; [reflexivity|].
  apply andb_prop in H. destruct H as [H1 H2]. apply N.eqb_eq in H1. f_equal; [exact H1|]. apply IH; [exact H2|lia].
Qed.
Lemma plain_best g restrict c s t : value_context g restrict ->
  plain_first g c = true -> Forall (fun d => plain_next g d = true) s -> follows g t ->
  reserved_start (c :: s) = false -> (In LBlock restrict -> lower (c :: s) <> u "loop_") ->
  best_match g (accepted g restrict) (c :: s ++ t) None = Some (Value1, c :: s, t).
Proof.
  intros Hctx Hc Hs Ht Hr Hl. apply best_longest.
  - apply context_value; [exact Hctx|]. destruct g; cbn; tauto.
  - now apply plain_value1.
  - intros t' m r Hi Hne M. pose proof Hi as Hi0. apply context_In in Hi; [|exact Hctx]. destruct Hi as [Hp Hi].
    assert (reserved_start (c :: s ++ t) = false) as Hr2
      by (change (c :: s ++ t) with ((c :: s) ++ t); now rewrite (reserved_follow g)).
    unfold reserved_start in Hr2. apply orb_false_iff in Hr2. destruct Hr2 as [Hr2 Hdata].
    apply orb_false_iff in Hr2. destruct Hr2 as [Hr2 Hstop]. apply orb_false_iff in Hr2. destruct Hr2 as [Hsave Hglob].
    destruct (tok_eq_dec t' LBlock) as [->|N1].
    { unfold matches in M. cbn [tok_re] in M. rewrite re_word in M by words.
      change (lower (u "LOOP_")) with (u "loop_") in M. change (length (u "LOOP_")) with 5 in M.
      destruct (starts_with _ _) eqn:E; [|discriminate].
      assert (m = firstn 5 ((c :: s) ++ t)) as -> by (cbn [app]; congruence). clear M.
      change (c :: s ++ t) with ((c :: s) ++ t) in E. rewrite (word_follow g) in E by (try exact Ht; repeat constructor).
      pose proof (starts_lower_length _ _ E) as L. change (length (u "loop_")) with 5 in L.
      assert (length (lower (c :: s)) <> 5) as L5.
      { intros L5. apply Hl; [|symmetry; apply starts_with_full; [exact E|symmetry; exact L5]].
        apply accepted_In in Hi0; [|eapply context_nonempty, Hctx]. destruct Hi0 as [_ [H|H]]; [exact H|discriminate]. }
      rewrite lower_length in L5. rewrite firstn_length, app_length. lia. }
    destruct (tok_eq_dec t' SaveHeading) as [->|N2].
    { unfold matches in M. cbn [tok_re] in M. rewrite re_word_plus in M by words.
      change (lower (u "SAVE_")) with (u "save_") in M. rewrite Hsave in M. discriminate. }
    destruct (tok_eq_dec t' SaveEnd) as [->|N3].
    { unfold matches in M. cbn [tok_re] in M. rewrite re_word in M by words.
      change (lower (u "SAVE_")) with (u "save_") in M. rewrite Hsave in M. discriminate. }
    destruct (tok_eq_dec t' DataHeading) as [->|N4].
    { unfold matches in M. cbn [tok_re] in M. rewrite re_word_plus in M by words.
      change (lower (u "DATA_")) with (u "data_") in M. rewrite Hdata in M. discriminate. }
    destruct (tok_eq_dec t' End) as [->|N5].
    { unfold matches in M. cbn [tok_re] in M. apply end_match in M. subst m. cbn. lia. }
    exfalso. apply Hne. eapply plain_others; [exact Hc| |exact Hp|exact M].
    cbn in Hi |- *. intuition congruence.
Qed.

(** ** Quoted values *)
Lemma quote_others g t q s m r : q = sq \/ q = dq ->
  In t (Ign1 :: Ign2 :: StartSc :: OSquare :: OCurl :: LBlock :: DataName :: SaveHeading :: SaveEnd :: DataHeading :: Comma :: CSquare :: nil) ->
  ~ matches g t (q :: s) m r.
Proof.
  intros Hq Ht M. unfold matches in M. rewrite re_none in M; [discriminate| |];
    destruct g; repeat (destruct Ht as [<-|Ht]; [try reflexivity; destruct Hq as [->| ->]; reflexivity|]); destruct Ht.
Qed.
Lemma quote_not_plain g q s : q = sq \/ q = dq -> re_match (re_plain g) (q :: s) = None.
Proof.
  intros Hq. rewrite re_plain_match. destruct (reserved_start (q :: s)); [reflexivity|].
  destruct g, Hq as [->| ->]; reflexivity.
Qed.
Definition excl (q : N) : str := if (q =? sq)%N then excl_sq else excl_dq.
Lemma quoted1_value g q v t : g = G10 \/ g = G11 -> q = sq \/ q = dq -> Forall (fun c => ~ In c (excl q)) v -> ends_token t ->
  matches g Value1 (q :: v ++ q :: t) (q :: v ++ [q]) t.
Proof.
  intros Hg Hq Hv Ht. unfold matches.
  assert (tok_re g Value1 = RAlt (re_plain g) (RAlt (re_quoted1 sq excl_sq) (re_quoted1 dq excl_dq))) as -> by (destruct Hg as [->| ->]; reflexivity).
  rewrite re_alt, quote_not_plain by exact Hq. rewrite re_alt.
  destruct Hq as [->| ->].
  - rewrite re_quoted1_match; [reflexivity|cbn; tauto|exact Hv|reflexivity|exact Ht].
  - rewrite re_none by reflexivity.
    rewrite re_quoted1_match; [reflexivity|cbn; tauto|exact Hv|reflexivity|exact Ht].
Qed.
Lemma quoted1_best g restrict q v t : g = G10 \/ g = G11 -> value_context g restrict -> q = sq \/ q = dq ->
  Forall (fun c => ~ In c (excl q)) v -> ends_token t ->
  best_match g (accepted g restrict) (q :: v ++ q :: t) None = Some (Value1, q :: v ++ [q], t).
Proof.
  intros Hg Hctx Hq Hv Ht. apply best_longest.
  - apply context_value; [exact Hctx|]. destruct g; cbn; tauto.
  - now apply quoted1_value.
  - intros t' m r Hi Hne M. apply context_In in Hi; [|exact Hctx]. destruct Hi as [Hp Hi].
    destruct (tok_eq_dec t' End) as [->|N5].
    { unfold matches in M. cbn [tok_re] in M. apply end_match in M. subst m. cbn. lia. }
    exfalso. eapply (quote_others g t' q); [exact Hq| |exact M].
    destruct Hg as [->| ->]; cbn in Hp, Hi |- *; intuition congruence.
Qed.

(** CIF2: single and triple quotes *)
Lemma lazy_first b n v e m r : length v <= n ->
  (forall v1 v2, v = v1 ++ v2 -> v2 <> [] -> rmatch b (v2 ++ e) = []) -> re_match b e = Some (m, r) ->
  hd_error (flat_map (fun cr => map (pre (fst cr)) (rmatch b (snd cr))) (lazy_go (rmatch (RChr (fun _ => true))) n (v ++ e)))
  = Some (v ++ m, r).
Proof.
  revert v. induction n as [|n IH]; intros v Hn Hv He.
  - destruct v; [|cbn in Hn; lia]. cbn [app lazy_go flat_map fst snd]. rewrite app_nil_r, pre_nil. exact He.
  - destruct v as [|c v].
    + cbn [app lazy_go flat_map fst snd]. rewrite hd_app, pre_nil. unfold re_match in He. now rewrite He.
    + pose proof (Hv [] (c :: v) eq_refl ltac:(discriminate)) as H0. cbn [app] in H0.
      cbn [app lazy_go flat_map fst snd rmatch]. rewrite H0. cbn [map app flat_map fst snd].
      rewrite app_nil_r. rewrite (flat_map_map _ (fun cr2 => (c :: fst cr2, snd cr2))).
      transitivity (hd_error (map (pre [c]) (flat_map (fun cr => map (pre (fst cr)) (rmatch b (snd cr)))
                  (lazy_go (rmatch (RChr (fun _ => true))) n (v ++ e))))).
      { f_equal. rewrite map_flat_map. apply flat_map_ext. intros [x y]. cbn [fst snd]. now rewrite pre_pre. }
      rewrite hd_map_pre, IH; [reflexivity|cbn in Hn; lia| |exact He].
      intros v1 v2 E Hne. apply (Hv (c :: v1) v2); [now rewrite E|exact Hne].
Qed.
Lemma re_lazy_seq b v e m r :
  (forall v1 v2, v = v1 ++ v2 -> v2 <> [] -> rmatch b (v2 ++ e) = []) -> re_match b e = Some (m, r) ->
  re_match (RSeq (RLazy (RChr (fun _ => true))) b) (v ++ e) = Some (v ++ m, r).
Proof.
  intros Hv He. unfold re_match. rewrite rmatch_seq. apply lazy_first; [rewrite app_length; lia|exact Hv|exact He].
Qed.
Definition three (q : N) : re := RSeq (is q) (RSeq (is q) (is q)).
Lemma rmatch_three q s : rmatch (three q) s = if starts_with [q; q; q] s then [([q; q; q], skipn 3 s)] else [].
Proof.
  unfold three, is. rewrite rmatch_seq_chr. destruct s as [|a s]; [reflexivity|]. cbn [starts_with].
  destruct (q =? a)%N eqn:Ea; [|reflexivity]. apply N.eqb_eq in Ea. subst a. rewrite rmatch_seq_chr.
  destruct s as [|a s]; [reflexivity|]. destruct (q =? a)%N eqn:Ea; [|reflexivity]. apply N.eqb_eq in Ea. subst a. cbn [rmatch].
  destruct s as [|a s]; [reflexivity|]. destruct (q =? a)%N eqn:Ea; [|reflexivity]. apply N.eqb_eq in Ea. subst a. reflexivity.
Qed.
(** [v] does not contain three quotes, and does not end in one *)
Definition no_triple (q : N) (v : str) : Prop :=
  (forall a b, v <> a ++ [q; q; q] ++ b) /\ (forall a, v <> a ++ [q]).
Lemma no_triple_suffix q v1 v2 t : no_triple q (v1 ++ v2) -> v2 <> [] -> starts_with [q; q; q] (v2 ++ [q; q; q] ++ t) = false.
Proof.
  intros [H1 H2] Hne. apply not_true_iff_false. intros H. destruct v2 as [|a [|b [|c v2]]].
  - congruence.
  - cbn in H. apply andb_prop in H. destruct H as [H _]. apply N.eqb_eq in H. subst a. apply (H2 v1). reflexivity.
  - cbn in H. apply andb_prop in H. destruct H as [_ H]. apply andb_prop in H. destruct H as [H _]. apply N.eqb_eq in H. subst b.
    apply (H2 (v1 ++ [a])). now rewrite <- app_assoc.
  - cbn in H. rewrite !andb_true_iff, !N.eqb_eq in H. destruct H as (<- & <- & <- & _). apply (H1 v1 v2). reflexivity.
Qed.
Lemma re_triple_match q v t : no_triple q v ->
  re_match (re_triple q) ([q; q; q] ++ v ++ [q; q; q] ++ t) = Some ([q; q; q] ++ v ++ [q; q; q], t).
Proof.
  intros Hv. unfold re_triple. cbn [rseq]. fold (three q). unfold is at 1 2 3. cbn [app].
  rewrite !re_seq_chr, N.eqb_refl. fold (three q).
  change (v ++ q :: q :: q :: t) with (v ++ [q; q; q] ++ t).
  rewrite (re_lazy_seq (three q) v ([q; q; q] ++ t) [q; q; q] t); [reflexivity| |].
  - intros v1 v2 -> Hne. rewrite rmatch_three, (no_triple_suffix q v1 v2 t Hv Hne). reflexivity.
  - unfold re_match. rewrite rmatch_three. cbn. now rewrite !N.eqb_refl.
Qed.
Lemma re_triple_none q c s : c <> q -> re_match (re_triple q) (c :: s) = None.
Proof. intros H. apply re_none; [reflexivity|]. cbn. apply not_true_iff_false. intros E. rewrite !orb_false_r in E. apply N.eqb_eq in E. congruence. Qed.
Lemma re_triple_none2 q c s : c <> q -> re_match (re_triple q) (q :: c :: s) = None.
Proof.
  intros H. unfold re_triple. cbn [rseq]. unfold is at 1 2. rewrite !re_seq_chr, N.eqb_refl.
  replace (q =? c)%N with false; [reflexivity|]. symmetry. apply N.eqb_neq. congruence.
Qed.
Lemma re_triple_none3 q s : first_is q s = false -> re_match (re_triple q) (q :: q :: s) = None.
Proof.
  intros H. unfold re_triple. cbn [rseq]. unfold is at 1 2 3. rewrite !re_seq_chr, N.eqb_refl.
  destruct s as [|c s]; [reflexivity|]. cbn in H. rewrite re_seq_chr, N.eqb_sym, H. reflexivity.
Qed.
Lemma re_triple_short q : re_match (re_triple q) [q] = None.
Proof. unfold re_triple. cbn [rseq]. unfold is at 1. rewrite re_seq_chr, N.eqb_refl. reflexivity. Qed.

Lemma quoted2_single g q v t : q = sq \/ q = dq -> Forall (fun c => ~ In c (excl q)) v -> first_is q t = false ->
  matches g SingleQ (q :: v ++ q :: t) (q :: v ++ [q]) t.
Proof.
  intros Hq Hv Ht. unfold matches. cbn [tok_re]. rewrite re_alt. destruct Hq as [->| ->].
  - rewrite re_quoted2_match; [reflexivity|cbn; tauto|exact Hv|exact Ht].
  - rewrite re_none by reflexivity. rewrite re_quoted2_match; [reflexivity|cbn; tauto|exact Hv|exact Ht].
Qed.
Lemma quoted2_not_triple g q v t m r : q = sq \/ q = dq -> Forall (fun c => ~ In c (excl q)) v -> first_is q t = false ->
  ~ matches g TripleQ (q :: v ++ q :: t) m r.
Proof.
  intros Hq Hv Ht M. unfold matches in M. cbn [tok_re] in M. rewrite re_alt in M.
  assert (forall q', re_match (re_triple q') (q :: v ++ q :: t) = None) as H.
  { intros q'. destruct (N.eq_dec q q') as [<-|N]; [|now apply re_triple_none].
    destruct v as [|c v]; [now apply re_triple_none3|]. cbn [app]. apply re_triple_none2.
    apply Forall_cons_iff in Hv. destruct Hv as [Hv _]. intros ->. apply Hv. destruct Hq as [->| ->]; cbn; tauto. }
  rewrite !H in M. discriminate.
Qed.
Lemma span_le p s : length (fst (span p s)) <= length s.
Proof. rewrite <- (span_app p s) at 2. rewrite app_length. lia. Qed.
(** Single quotes at a triple-quoted value only take the leading quotes. *)
Lemma single_on_triple q ex s m r : In q ex -> first_is q s = true ->
  re_match (re_quoted2 q ex) (q :: s) = Some (m, r) -> exists k, m = repeat q k.
Proof.
  intros Hq Hs M. destruct s as [|c s]; [discriminate|]. cbn in Hs. apply N.eqb_eq in Hs. subst c.
  unfold re_quoted2 in M. cbn [rseq] in M. unfold is at 1 in M.
  rewrite re_seq_chr, N.eqb_refl in M. rewrite re_seq_star in M.
  - cbn [span] in M. rewrite (not_in_false ex q Hq) in M. cbn [fst snd] in M. unfold is in M. rewrite re_plus_chr in M.
    pose proof (span_all (N.eqb q) (q :: s)) as A. destruct (span (N.eqb q) (q :: s)) as [x y] eqn:E. cbn [fst] in A.
    assert (x = repeat q (length x)) as Hx.
    { clear -A. induction A as [|c x Hc A IH]; [reflexivity|]. apply N.eqb_eq in Hc. subst c. cbn. now rewrite <- IH. }
    destruct x as [|c x]; [discriminate|]. cbn in M. injection M as <- <-.
    exists (S (length (c :: x))). cbn [repeat]. now rewrite <- Hx.
  - intros c t Hc. unfold rplus, is. rewrite rmatch_seq_chr. destruct (q =? c)%N eqn:E; [|reflexivity].
    apply N.eqb_eq in E. subst c. rewrite not_in_false in Hc by exact Hq. discriminate.
Qed.
Lemma repeat_bound q v t k y : (forall a, v <> a ++ [q]) -> first_is q t = false ->
  [q; q; q] ++ v ++ [q; q; q] ++ t = repeat q k ++ y -> k <= 6 + length v.
Proof.
  intros Hv Ht H. destruct (Nat.le_gt_cases k (6 + length v)) as [L|L]; [exact L|]. exfalso.
  assert (forall i c, i < k -> nth_error ([q; q; q] ++ v ++ [q; q; q] ++ t) i = Some c -> c = q) as Hq.
  { intros i c Hi E. rewrite H, nth_error_app1 in E by (now rewrite repeat_length). apply nth_error_In in E. now apply repeat_spec in E. }
  assert (length (repeat q k ++ y) = 6 + length v + length t) as Hl.
  { rewrite <- H, !app_length. cbn. lia. }
  rewrite app_length, repeat_length in Hl.
  destruct t as [|c t]; [cbn in Hl; lia|]. cbn in Ht. apply N.eqb_neq in Ht. apply Ht.
  apply (Hq (6 + length v)); [lia|].
  rewrite nth_error_app2 by (cbn; lia). cbn [length]. rewrite nth_error_app2 by lia.
  replace (6 + length v - 3 - length v) with 3 by lia. reflexivity.
Qed.
Lemma filter_mid {A} (f : A -> bool) b x a : f x = true -> filter f (b ++ x :: a) = filter f b ++ x :: filter f a.
Proof. intros H. rewrite filter_app. cbn. now rewrite H. Qed.
Lemma patterns_triple g : g = G20 \/ g = GS2 -> exists b a, patterns g = b ++ TripleQ :: a /\ ~ In SingleQ b.
Proof.
  intros [->| ->]; [exists (Colon :: firstn 17 tokens2), (SingleQ :: [Value1; End])
                  |exists (Colon :: Comma :: firstn 17 tokens2), (SingleQ :: [End; Value1])];
    (split; [reflexivity|]); cbn; intuition discriminate.
Qed.
Definition quote_context (g : grammar) (restrict : list tok) : Prop :=
  value_context g restrict
  \/ (In SingleQ restrict /\ In TripleQ restrict /\ forall t, In t restrict -> In t [Comma; CCurl; TripleQ; SingleQ]).
Lemma quote_context_In g restrict t : quote_context g restrict -> In t (accepted g restrict) ->
  In t (Ign1 :: Ign2 :: Value1 :: StartSc :: OSquare :: OCurl :: LBlock :: DataName :: SaveHeading :: SaveEnd :: DataHeading
                   :: End :: Comma :: CSquare :: CCurl :: TripleQ :: SingleQ :: nil).
Proof.
  intros [Hctx|[H1 [_ H2]]] Hi.
  - apply context_In in Hi; [|exact Hctx]. destruct Hi as [_ Hi]. cbn in Hi |- *. intuition congruence.
  - apply accepted_In in Hi; [|intros ->; destruct H1]. destruct Hi as [_ [Hi|Hi]].
    + apply H2 in Hi. cbn in Hi |- *. intuition congruence.
    + destruct t; try discriminate Hi; cbn; tauto.
Qed.
Lemma quote_context_quotes g restrict t : g = G20 \/ g = GS2 -> quote_context g restrict -> t = SingleQ \/ t = TripleQ ->
  In t restrict /\ restrict <> [].
Proof.
  intros Hg [Hctx|[H1 [H2 _]]] Ht.
  - split; [|eapply context_nonempty, Hctx]. apply Hctx. destruct Hg as [->| ->], Ht as [->| ->]; cbn; tauto.
  - split; [destruct Ht as [->| ->]; assumption|intros ->; destruct H1].
Qed.
Lemma quote_rest g q s t m r : g = G20 \/ g = GS2 -> q = sq \/ q = dq ->
  In t (Ign1 :: Ign2 :: Value1 :: StartSc :: OSquare :: OCurl :: LBlock :: DataName :: SaveHeading :: SaveEnd :: DataHeading
                   :: End :: Comma :: CSquare :: CCurl :: nil) -> matches g t (q :: s) m r -> m = [].
Proof.
  intros Hg Hq Hin M. destruct (tok_eq_dec t End) as [->|N5].
  { unfold matches in M. cbn [tok_re] in M. now apply end_match in M. }
  exfalso. destruct (tok_eq_dec t Value1) as [->|N6].
  { unfold matches in M. assert (tok_re g Value1 = re_plain g) as E by (destruct Hg as [->| ->]; reflexivity).
    rewrite E, quote_not_plain in M by exact Hq. discriminate. }
  destruct (tok_eq_dec t CCurl) as [->|N7].
  { unfold matches in M. rewrite re_none in M; [discriminate|reflexivity|]. destruct Hq as [->| ->]; reflexivity. }
  eapply (quote_others g t q); [exact Hq| |exact M]. cbn in Hin |- *. intuition congruence.
Qed.
Lemma quoted2_best g restrict q v t : g = G20 \/ g = GS2 -> quote_context g restrict ->
  q = sq \/ q = dq -> Forall (fun c => ~ In c (excl q)) v -> first_is q t = false ->
  best_match g (accepted g restrict) (q :: v ++ q :: t) None = Some (SingleQ, q :: v ++ [q], t).
Proof.
  intros Hg Hctx Hq Hv Ht. apply best_longest.
  - destruct (quote_context_quotes g restrict SingleQ Hg Hctx (or_introl eq_refl)) as [Hs Hn].
    apply accepted_In; [exact Hn|]. split; [destruct Hg as [->| ->]; cbn; tauto|now left].
  - now apply quoted2_single.
  - intros t' m r Hi Hne M.
    destruct (tok_eq_dec t' TripleQ) as [->|N1]; [exfalso; eapply quoted2_not_triple; eauto|].
    apply quote_context_In in Hi; [|exact Hctx].
    assert (m = []) as -> by (eapply quote_rest; [exact Hg|exact Hq| |exact M]; cbn in Hi |- *; intuition congruence).
    cbn. lia.
Qed.
Lemma triple_best g restrict q v t : g = G20 \/ g = GS2 -> quote_context g restrict ->
  q = sq \/ q = dq -> no_triple q v -> first_is q t = false ->
  best_match g (accepted g restrict) ([q; q; q] ++ v ++ [q; q; q] ++ t) None = Some (TripleQ, [q; q; q] ++ v ++ [q; q; q], t).
Proof.
  intros Hg Hctx Hq Hv Ht. apply best_wins.
  assert (matches g TripleQ ([q; q; q] ++ v ++ [q; q; q] ++ t) ([q; q; q] ++ v ++ [q; q; q]) t) as M.
  { unfold matches. cbn [tok_re]. rewrite re_alt. destruct Hq as [->| ->].
    - now rewrite re_triple_match.
    - cbn [app]. rewrite re_triple_none by discriminate. change (?a :: ?b :: ?c :: v ++ ?x) with ([a; b; c] ++ v ++ x).
      exact (re_triple_match dq v t Hv). }
  assert (forall t' m r, In t' (accepted g restrict) -> t' <> TripleQ -> t' <> SingleQ ->
            matches g t' ([q; q; q] ++ v ++ [q; q; q] ++ t) m r -> m = []) as Hrest.
  { intros t' m r Hi N1 N2 M'. apply quote_context_In in Hi; [|exact Hctx].
    eapply quote_rest; [exact Hg|exact Hq| |exact M']. cbn in Hi |- *. intuition congruence. }
  destruct (quote_context_quotes g restrict TripleQ Hg Hctx (or_intror eq_refl)) as [Hin Hn].
  destruct (patterns_triple g Hg) as (b & a & Ep & Hb).
  assert (accepted g restrict = filter (fun t => tmem t restrict || ignored t) b ++ TripleQ :: filter (fun t => tmem t restrict || ignored t) a) as Ea.
  { unfold accepted. destruct restrict as [|x l]; [congruence|]. rewrite Ep. apply filter_mid.
    apply orb_true_iff. left. now apply tmem_In. }
  rewrite Ea in *. eexists _, _. split; [reflexivity|]. split; [exact M|].
  assert (length ([q; q; q] ++ v ++ [q; q; q]) = 6 + length v) as Hlen by (rewrite !app_length; cbn; lia).
  split.
  - intros t' m r Hi M'. destruct (tok_eq_dec t' TripleQ) as [->|N1].
    + exfalso. apply filter_In in Hi. destruct Hi as [Hi _]. destruct Hg as [->| ->]; cbn in Ep;
      repeat (destruct b as [|? b]; cbn in Ep; [try discriminate|injection Ep as <- Ep; try (cbn in Hi; intuition discriminate)]).
      all: try (cbn in Hi; intuition discriminate). all: try (destruct b; discriminate).
    + rewrite (Hrest t' m r); [rewrite Hlen; cbn; lia| |exact N1| |exact M'].
      * apply in_or_app. now left.
      * intros ->. apply filter_In in Hi. tauto.
  - intros t' m r Hi M'. destruct (tok_eq_dec t' TripleQ) as [->|N1].
    + unfold matches in M, M'. assert (m = [q; q; q] ++ v ++ [q; q; q]) as -> by congruence. apply Nat.le_refl.
    + destruct (tok_eq_dec t' SingleQ) as [->|N2].
      * pose proof (matches_split _ _ _ _ _ M') as S. unfold matches in M'. cbn [tok_re] in M'. rewrite re_alt in M'.
        assert (exists k, m = repeat q k) as (k & ->).
        { destruct Hq as [->| ->]; cbn [app] in M'.
          - destruct (re_match (re_quoted2 sq excl_sq) _) as [[x y]|] eqn:E.
            + injection M' as <- <-. eapply single_on_triple; [| |exact E]; [cbn; tauto|reflexivity].
            + rewrite re_none in M' by reflexivity. discriminate.
          - rewrite re_none in M' by reflexivity. eapply single_on_triple; [| |exact M']; [cbn; tauto|reflexivity]. }
        rewrite repeat_length, Hlen. eapply repeat_bound; [exact (proj2 Hv)|exact Ht|exact S].
      * rewrite (Hrest t' m r); [cbn; lia| |exact N1|exact N2|exact M']. apply in_or_app. right. now right.
Qed.
