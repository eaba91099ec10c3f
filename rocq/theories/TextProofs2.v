(** Reading whole text fields. *)
From Coq Require Import String Ascii List NArith ZArith Bool Lia ZifyBool ZifyN ZifyNat.
From Verif Require Import PyBase PyFacts RegexModel RegexFacts FoldModel ScanModel ReadModel ParseModel
  ScanFacts ScanSpec ScanProofs ScanProofs2 ScanProofs3 TextProofs.
Import ListNotations.
Open Scope nat_scope.

(** ** The opening line *)
Lemma start_others g t s m r : In t (Ign1 :: Ign2 :: Value1 :: TripleQ :: SingleQ :: OSquare :: OCurl ::
        LBlock :: DataName :: SaveHeading :: SaveEnd :: DataHeading :: End :: Comma :: CSquare :: nil) ->
  ~ matches g t (10%N :: 59%N :: s) m r.
Proof.
  intros Ht M. unfold matches in M. destruct (tok_eq_dec t End) as [->|N].
  - unfold re_match in M. cbn in M. discriminate.
  - destruct (tok_eq_dec t Ign1) as [->|N1]; [rewrite re_ign1 in M; discriminate|].
    rewrite re_none in M; [discriminate| |]; destruct g;
      repeat (destruct Ht as [<-|Ht]; [try reflexivity; congruence|]); destruct Ht.
Qed.
Lemma start_best g restrict a e r : value_context g restrict \/ restrict = [StartSc] ->
  Forall (fun c => not_eol c = true) a -> Forall (fun c => is_eol c = true) e -> e <> [] ->
  match r with [] => True | d :: _ => is_eol d = false end ->
  best_match g (accepted g restrict) ([10; 59]%N ++ a ++ e ++ r) None = Some (StartSc, [10; 59]%N ++ a ++ e, r).
Proof.
  intros Hctx Ha He Hne Hr. apply best_longest.
  - destruct Hctx as [Hctx| ->].
    + apply context_value; [exact Hctx|]. destruct g; cbn; tauto.
    + destruct g; cbn; tauto.
  - unfold matches. rewrite re_startsc. cbn [app N.eqb Pos.eqb]. rewrite line_end_split by assumption. reflexivity.
  - intros t m x Hi Hn M. exfalso. cbn [app] in M. eapply start_others; [|exact M].
    destruct Hctx as [Hctx| ->].
    + apply context_In in Hi; [|exact Hctx]. destruct Hi as [_ Hi]. cbn in Hi |- *. intuition congruence.
    + destruct g; cbn in Hi |- *; intuition congruence.
Qed.
Lemma start_scan g restrict a e r : value_context g restrict \/ restrict = [StartSc] ->
  Forall (fun c => not_eol c = true) a -> Forall (fun c => is_eol c = true) e -> e <> [] ->
  match r with [] => True | d :: _ => is_eol d = false end ->
  scan g restrict ([10; 59]%N ++ a ++ e ++ r) = Ret (StartSc, [10; 59]%N ++ a ++ e, r).
Proof. intros. apply scan_first; [now apply start_best|reflexivity]. Qed.

(** [read_field g s x r]: looking for a value at [s], whatever the context, finds
    a text field with source text [x] and leaves [r]. *)
Definition read_field (g : grammar) (s x r : str) : Prop :=
  exists m rest, (forall restrict, value_context g restrict \/ restrict = [StartSc] -> scan g restrict s = Ret (StartSc, m, rest))
  /\ (forall restrict, In StartSc restrict -> sc_lines g (PS rest (Some (StartSc, m, restrict))) = Ret (x, PS r None)).

Lemma body_length ls : length ls <= length (body ls).
Proof. induction ls as [|l ls IH]; [cbn; lia|]. rewrite body_cons, app_length. cbn. unfold str in *. lia. Qed.
Lemma field_by_lines g l0 ls tail : Forall one_line (l0 :: ls) -> Forall (fun l => first_is 59 l = false) ls ->
  read_field g ([10; 59]%N ++ join_lines (l0 :: ls) ++ [10; 59]%N ++ tail)
             ([10; 59]%N ++ join_lines (l0 :: kept ls) ++ [10; 59]%N) tail.
Proof.
  intros Hls Hsc. apply Forall_cons_iff in Hls. destruct Hls as [Hl0 Hls].
  assert (Forall field_line ls) as Hf.
  { rewrite Forall_forall in *. intros l Hl. split; [now apply Hls|now apply Hsc]. }
  destruct (leading_blanks ls) as (k & ls2 & -> & H2). pose proof (proj2 (proj1 (Forall_app _ _ _) Hf)) as Hf2.
  exists ([10; 59]%N ++ l0 ++ repeat 10%N (S k)), (body ls2 ++ 59%N :: tail). split.
  - intros restrict Hctx.
    assert ([10; 59]%N ++ join_lines (l0 :: repeat [] k ++ ls2) ++ [10; 59]%N ++ tail
            = [10; 59]%N ++ l0 ++ repeat 10%N (S k) ++ body ls2 ++ 59%N :: tail) as E.
    { f_equal. change ([10; 59]%N ++ tail) with ([10%N] ++ 59%N :: tail). rewrite (app_assoc _ [10%N]).
      rewrite (join_body l0 (repeat [] k ++ ls2)), body_cons, body_app, body_blank. cbn [repeat]. rewrite <- !app_assoc. cbn [app]. now rewrite <- app_assoc. }
    etransitivity; [apply f_equal; exact E|].
    apply start_scan; [exact Hctx|now apply eol_not_eol, one_line_eol|apply repeat_eol|discriminate|now apply body_follow].
  - intros restrict Hi. unfold sc_lines. rewrite take_pend by (try exact Hi; intros ->; destruct Hi). cbn [obind fst snd p_inp].
    rewrite (sc_rest_lines g tail (length ls2)); [|unfold str in *; lia| |exact Hf2|exact H2].
    + assert (forall y, y ++ [10; 59]%N = (y ++ [10%N]) ++ [59%N]) as Y by (intros y; now rewrite <- app_assoc).
      rewrite (Y (join_lines _)), join_body.
      rewrite (kept_blank k ls2 : kept (repeat [] k ++ ls2) = _), body_cons, body_app, body_blank. cbn [repeat].
      rewrite <- !app_assoc. cbn [app]. rewrite <- !app_assoc. reflexivity.
    + rewrite app_length. pose proof (body_length ls2). unfold str in *. lia.
Qed.

(** ** Any characters, if no later line starts with a hash sign *)
Lemma no_start_tl k c s : no_line_starts_with k (c :: s) -> no_line_starts_with k s.
Proof. intros H a d b ->. apply (H (c :: a) d b). reflexivity. Qed.
Lemma no_start_suffix k a s : no_line_starts_with k (a ++ s) -> no_line_starts_with k s.
Proof. induction a as [|c a IH]; [tauto|]. intros H. apply IH. eapply no_start_tl, H. Qed.
Lemma lines_split R' : exists a e r, R' ++ [10%N] = a ++ e ++ r /\ Forall (fun c => not_eol c = true) a
  /\ Forall (fun c => is_eol c = true) e /\ e <> [] /\ match r with [] => True | d :: _ => is_eol d = false end.
Proof.
  set (R := R' ++ [10%N]). exists (fst (span not_eol R)), (fst (span is_eol (snd (span not_eol R)))), (snd (span is_eol (snd (span not_eol R)))).
  split; [now rewrite span_app, span_app|]. split; [apply span_all|]. split; [apply span_all|].
  assert (exists c t, snd (span not_eol R) = c :: t) as (c & t & E).
  { destruct (snd (span not_eol R)) as [|c t] eqn:E; [|eauto]. exfalso.
    pose proof (span_app not_eol R) as S. rewrite E, app_nil_r in S. pose proof (span_all not_eol R) as A. rewrite S in A.
    unfold R in A. apply Forall_app in A. destruct A as [_ A]. apply Forall_cons_iff in A. destruct A as [A _]. discriminate. }
  pose proof (span_stop _ _ _ _ E) as Hc. rewrite not_eol_spec in Hc. apply negb_false_iff in Hc. split.
  - rewrite E. cbn [span]. rewrite Hc. destruct (span is_eol t). discriminate.
  - destruct (snd (span is_eol (snd (span not_eol R)))) as [|d r] eqn:E2; [exact I|]. now apply span_stop in E2.
Qed.
Definition begins_ok (R : str) : Prop := match R with [] => True | c :: _ => is_eol c = false /\ c <> 59%N /\ c <> 35%N end.
Lemma after_eols_ok X a e r : X = a ++ e ++ r -> Forall (fun c => is_eol c = true) e -> e <> [] ->
  match r with [] => True | d :: _ => is_eol d = false end ->
  no_line_starts_with 59 X -> no_line_starts_with 35 X -> begins_ok r.
Proof.
  intros -> He Hne Hr H1 H2. destruct r as [|d r]; [exact I|]. destruct (exists_last Hne) as (e' & x & ->).
  apply Forall_app in He. destruct He as [_ He]. apply Forall_cons_iff in He. destruct He as [He _].
  split; [exact Hr|]. split; intros ->.
  - destruct (H1 (a ++ e') x r) as [A B]; [now rewrite <- !app_assoc|]. unfold is_eol in He. lia.
  - destruct (H2 (a ++ e') x r) as [A B]; [now rewrite <- !app_assoc|]. unfold is_eol in He. lia.
Qed.
Lemma sc_rest_any g tail : forall n R fuel acc, length R <= n -> length R <= fuel ->
  (R = [] \/ exists R', R = R' ++ [10%N]) -> begins_ok R -> no_line_starts_with 59 R -> no_line_starts_with 35 R ->
  sc_rest fuel g acc (PS (R ++ 59%N :: tail) None) = Ret (acc ++ R ++ [59%N], PS tail None).
Proof.
  induction n as [|n IH]; intros R fuel acc Hn Hf HR Hb H59 H35.
  - destruct R; [|cbn in Hn; lia]. apply sc_rest_end.
  - destruct R as [|c R]; [apply sc_rest_end|]. destruct HR as [HR|[R' HR]]; [discriminate|].
    destruct Hb as (Hc & Hc59 & Hc35). destruct R' as [|c' R']; [injection HR as -> ->; discriminate|].
    injection HR as <- ->. destruct (lines_split R') as (a & e & r & E & Ha & He & Hne & Hr).
    assert (begins_ok r) as Hbr by (eapply (after_eols_ok (c :: R' ++ [10%N]) (c :: a) e r); try assumption; now rewrite E).
    assert (r = [] \/ exists r', r = r' ++ [10%N]) as Hr'.
    { destruct r as [|d r]; [now left|]. right. rewrite app_assoc in E.
      destruct (exists_last (l := d :: r)) as (r' & w & Ew); [discriminate|]. exists r'. rewrite Ew in *.
      rewrite app_assoc in E. apply app_inj_tail in E. destruct E as [_ ->]. reflexivity. }
    assert (length R' + 1 = length a + length e + length r) as Hlen
      by (apply (f_equal (@length N)) in E; rewrite !app_length in E; cbn in E; lia).
    cbn [app length] in *. rewrite app_length in Hn, Hf. cbn [length] in Hn, Hf.
    destruct fuel as [|fuel]; [lia|].
    assert (1 <= length e) by (destruct e; [congruence|cbn; lia]).
    rewrite (sc_rest_line fuel g acc _ (c :: a ++ e) (r ++ 59%N :: tail)).
    + rewrite IH; [|lia|lia|exact Hr'|exact Hbr|idtac|idtac].
      * rewrite E. f_equal. f_equal. rewrite <- !app_assoc. cbn [app]. now rewrite <- !app_assoc.
      * apply (no_start_suffix _ (c :: a ++ e)). cbn [app]. rewrite <- app_assoc, <- E. exact H59.
      * apply (no_start_suffix _ (c :: a ++ e)). cbn [app]. rewrite <- app_assoc, <- E. exact H35.
    + rewrite E, <- !app_assoc. apply scline_wins; try assumption.
      * apply N.eqb_neq. exact Hc59.
      * destruct r as [|d r]; [reflexivity|exact (proj1 Hbr)].
      * intros m x M. rewrite re_ign2_none in M; [discriminate|]. apply N.eqb_neq. exact Hc35.
Qed.
Lemma no_start_snoc k p : no_line_starts_with k p -> k <> 10%N -> no_line_starts_with k (p ++ [10%N]).
Proof.
  intros H Hk a c b E. destruct (exists_last (l := c :: k :: b)) as (z & w & Ez); [discriminate|]. rewrite Ez in E.
  rewrite app_assoc in E. apply app_inj_tail in E. destruct E as [-> <-].
  destruct z as [|c' z]; [discriminate|]. injection Ez as <- Ez.
  destruct z as [|k' z]; [cbn in Ez; injection Ez as -> _; congruence|]. injection Ez as <- Ez.
  apply (H a c z). reflexivity.
Qed.
Lemma field_any g p tail : no_line_starts_with 59 p -> no_line_starts_with 35 p ->
  read_field g ([10; 59]%N ++ p ++ [10; 59]%N ++ tail) ([10; 59]%N ++ p ++ [10; 59]%N) tail.
Proof.
  intros H59 H35. destruct (lines_split p) as (a & e & r & E & Ha & He & Hne & Hr).
  pose proof (no_start_snoc _ _ H59 ltac:(discriminate)) as S59. pose proof (no_start_snoc _ _ H35 ltac:(discriminate)) as S35.
  assert (begins_ok r) as Hbr by (eapply (after_eols_ok (p ++ [10%N]) a e r); assumption).
  exists ([10; 59]%N ++ a ++ e), (r ++ 59%N :: tail). split.
  - intros restrict Hctx. change ([10; 59]%N ++ tail) with ([10%N] ++ 59%N :: tail). rewrite (app_assoc p), E, <- !app_assoc.
    apply start_scan; try assumption. destruct r as [|d r]; [reflexivity|exact (proj1 Hbr)].
  - intros restrict Hi. unfold sc_lines. rewrite take_pend by (try exact Hi; intros ->; destruct Hi). cbn [obind fst snd p_inp].
    rewrite (sc_rest_any g tail (length r)); [|lia|rewrite app_length; lia| |exact Hbr| |].
    + assert (p ++ [10; 59]%N = (p ++ [10%N]) ++ [59%N]) as -> by now rewrite <- app_assoc.
      rewrite E, <- !app_assoc. reflexivity.
    + destruct r as [|d r]; [now left|]. right. destruct (exists_last (l := d :: r)) as (r' & w & Ew); [discriminate|]. exists r'. rewrite Ew in *.
      rewrite !app_assoc in E. apply app_inj_tail in E. destruct E as [_ ->]. reflexivity.
    + apply (no_start_suffix _ (a ++ e)). now rewrite <- app_assoc, <- E.
    + apply (no_start_suffix _ (a ++ e)). now rewrite <- app_assoc, <- E.
Qed.

(** ** stripextras *)
Lemma firstn_exact {A} (a b : list A) : firstn (length a) (a ++ b) = a.
Proof. rewrite firstn_app, Nat.sub_diag, firstn_all, firstn_O. apply app_nil_r. Qed.
Lemma stripextras_field p : stripextras ([10; 59]%N ++ p ++ [10; 59]%N)
  = remove_line_folding (remove_line_prefix (drop_cr p)).
Proof.
  unfold stripextras.
  assert (re_match re_semis ([10; 59]%N ++ p ++ [10; 59]%N) = Some ([10; 59]%N, p ++ [10; 59]%N)) as ->.
  { unfold re_semis, re_ws, one_of, is. cbn [rseq app]. unfold re_match. rewrite rmatch_seq, rmatch_star_chr.
    cbn [chr_star existsb N.eqb Pos.eqb orb map app flat_map pre fst snd].
    rewrite rmatch_seq_chr. cbn [existsb N.eqb Pos.eqb orb map app]. rewrite rmatch_seq_chr. cbn [existsb N.eqb Pos.eqb orb].
    rewrite !rmatch_seq, !rmatch_star_chr. cbn [chr_star N.eqb Pos.eqb flat_map fst snd].
    cbn [rmatch N.eqb Pos.eqb map app pre fst snd hd_error]. reflexivity. }
  do 3 f_equal. unfold py_slice. cbn [length app skipn]. rewrite app_length. cbn [length].
  replace (S (S (length p + 2)) - 2 - 2) with (length p) by lia. apply firstn_exact.
Qed.
Lemma drop_cr_none p : (forall a, p <> a ++ [13%N]) -> drop_cr p = p.
Proof.
  intros H. unfold drop_cr, last_is. destruct (rev p) as [|c l] eqn:E; [reflexivity|]. cbn [first_is].
  destruct (N.eqb_spec c 13) as [->|N]; [|reflexivity]. exfalso. apply (H (rev l)).
  rewrite <- (rev_involutive p), E. reflexivity.
Qed.
Lemma drop_cr_last p : drop_cr (p ++ [13%N]) = p.
Proof. unfold drop_cr, last_is. rewrite rev_app_distr. cbn. apply removelast_last. Qed.

(** ** As a value *)
Lemma value_field g s x r : read_field g s x r -> forall fuel, value_go (S fuel) g (PS s None) = Ret (VStr (stripextras x), PS r None).
Proof.
  intros (m & rest & H1 & H2) fuel. cbn [value_go].
  assert (value_context g (value_first g)) as Hctx by (split; [intros t Ht; destruct g; exact Ht|intros t Ht; left; destruct g; exact Ht]).
  rewrite (peek_fresh _ _ _ StartSc m rest) by (apply H1; now left). cbn [obind].
  rewrite H2 by (destruct g; cbn; tauto). reflexivity.
Qed.
