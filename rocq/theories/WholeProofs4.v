(** The scanner picks values; every token that stands at a place. *)
From Coq Require Import String Ascii List NArith PeanoNat Bool Lia ZifyBool ZifyN ZifyNat.
From Verif Require Import PyBase PyFacts RegexModel RegexFacts FoldModel ScanModel ReadModel ParseModel
  ScanFacts ScanSpec ScanProofs ScanProofs2 ScanProofs3 TextProofs TextProofs2 ParseSpec GrammarSpec WholeSpec WholeProofs WholeProofs2 WholeProofs3.
Import ListNotations.
Open Scope nat_scope.

Lemma pick_unquoted g R m s : place g R -> In Value1 R -> unquoted g m s -> picked g R Value1 m s.
Proof.
  intros P H (c & r & -> & Hs & Hf & Hr & Hres & Hl & Ho). unfold picked. cbn [app].
  apply plain_best; [|now apply first_plain| |now apply over_follows|now apply not_reserved|intros _; exact Hl].
  - apply (place_context g R Value1 P H). cbn; tauto.
  - revert Hr. apply Forall_impl. intros d [A B]. now apply inside_plain.
Qed.
(** Quotes within quotes. *)
Lemma re_quoted1_inner q ex v t : In q ex -> Forall (fun c => c <> q -> ~ In c ex) v -> is_space q = false ->
  (forall a c b, v ++ [q] = a ++ q :: c :: b -> is_space c = false) -> ends_token t ->
  re_match (re_quoted1 q ex) (q :: v ++ q :: t) = Some (q :: v ++ [q], t).
Proof.
  intros Hq Hv Hs Hin Ht. unfold re_quoted1, rseq, is at 1. rewrite re_seq_chr, N.eqb_refl.
  erewrite re_seq; [reflexivity| |].
  - apply re_star_body.
    + intros v1 c v2 E. rewrite re_alt. unfold is. rewrite re_seq_chr. destruct (N.eq_dec q c) as [<-|Hc].
      * rewrite N.eqb_refl. assert (exists d b, v2 ++ [q] = d :: b /\ v2 ++ q :: t = d :: b ++ t) as (d & b & E2 & E3).
        { destruct v2 as [|d v2]; [exists q, []; split; reflexivity|]. exists d, (v2 ++ [q]). split; [reflexivity|]. cbn [app]. now rewrite <- app_assoc. }
        assert (is_space d = false) as Hd. { apply (Hin v1 d b). rewrite E, <- app_assoc. cbn [app]. now rewrite E2. }
        rewrite E3. unfold re_match. cbn [rmatch]. unfold ns. rewrite Hd. reflexivity.
      * rewrite (proj2 (N.eqb_neq q c) Hc). rewrite re_chr. rewrite in_not_in; [reflexivity|].
        rewrite Forall_forall in Hv. apply Hv; [rewrite E; apply in_or_app; right; now left|congruence].
    + rewrite rmatch_alt. unfold is. rewrite rmatch_seq_chr, N.eqb_refl. cbn [rmatch].
      rewrite (not_in_false ex q Hq), app_nil_r.
      destruct t as [|d t]; [reflexivity|]. cbn in Ht. unfold ns. rewrite Ht. reflexivity.
  - apply rplus_one. destruct t as [|d t]; [reflexivity|]. cbn [first_is ends_token] in *. apply N.eqb_neq. intros ->. congruence.
Qed.
Lemma pick_quoted1 g R m s : place g R -> In Value1 R -> ~ cif2 g -> quoted_cif1 m s -> picked g R Value1 m s.
Proof.
  intros P H C (q & x & Hq & -> & Hx & Hin & Hs).
  assert (g = G10 \/ g = G11) as Hg by (destruct g; [tauto|tauto|exfalso; apply C; left; reflexivity|exfalso; apply C; right; reflexivity]).
  assert ((q :: x ++ [q]) ++ s = q :: x ++ q :: s) as E by (cbn [app]; now rewrite <- app_assoc).
  assert (Forall (fun c => c <> q -> ~ In c (excl q)) x) as Hx'.
  { revert Hx. apply Forall_impl. intros c Hc N. now apply quote_chars. }
  apply (pick_alone g R Value1 (q :: x ++ [q]) s q (x ++ [q])); auto.
  - destruct Hg as [->| ->]; cbn; tauto.
  - rewrite E. unfold matches.
    assert (tok_re g Value1 = RAlt (re_plain g) (RAlt (re_quoted1 sq excl_sq) (re_quoted1 dq excl_dq))) as -> by (destruct Hg as [->| ->]; reflexivity).
    rewrite re_alt, quote_not_plain by exact (quote_sq q Hq). rewrite re_alt.
    destruct (quote_sq q Hq) as [->| ->].
    + rewrite re_quoted1_inner; [reflexivity|cbn; tauto|exact Hx'|reflexivity|exact Hin|exact Hs].
    + rewrite re_none by reflexivity. rewrite re_quoted1_inner; [reflexivity|cbn; tauto|exact Hx'|reflexivity|exact Hin|exact Hs].
  - intros t' Hr Hp Hn NE. left. rewrite E. destruct (re_match (tok_re g t') (q :: x ++ q :: s)) as [[m' r']|] eqn:M; [exfalso|reflexivity].
    apply (quote_others g t' q (x ++ q :: s) m' r'); [exact (quote_sq q Hq)| |exact M].
    destruct Hg as [->| ->]; cbn in Hr, Hp |- *; intuition congruence.
Qed.
Lemma pick_single g R m s : place g R -> In SingleQ R -> cif2 g -> quoted_cif2 m s -> picked g R SingleQ m s.
Proof.
  intros P H C (q & x & Hq & -> & Hx & Hs). unfold picked. replace ((q :: x ++ [q]) ++ s) with (q :: x ++ q :: s) by (cbn [app]; now rewrite <- app_assoc).
  apply quoted2_best; [exact C|apply (place_quote g R SingleQ); auto|exact (quote_sq q Hq)| |now apply hd_first_q].
  revert Hx. apply Forall_impl. intros c [A B]. now apply quote_chars.
Qed.
Lemma pick_triple g R m s : place g R -> In TripleQ R -> cif2 g -> quoted_triple m s -> picked g R TripleQ m s.
Proof.
  intros P H C (q & x & Hq & -> & Hx & Hs). unfold picked. rewrite <- !app_assoc.
  apply triple_best; [exact C|apply (place_quote g R TripleQ); auto|exact (quote_sq q Hq)| |now apply hd_first_q]. split.
  - intros a b E. specialize (Hx a (b ++ [q; q; q])). rewrite E, <- !app_assoc in Hx. specialize (Hx eq_refl). destruct b; discriminate.
  - intros a E. specialize (Hx a [q]). rewrite E, <- !app_assoc in Hx. discriminate (Hx eq_refl).
Qed.
Lemma start_crlf_best g R a e r : value_context g R -> Forall (fun c => not_eol c = true) a -> Forall (fun c => is_eol c = true) e -> e <> [] ->
  match r with [] => True | d :: _ => is_eol d = false end ->
  best_match g (accepted g R) ([13; 10; 59]%N ++ a ++ e ++ r) None = Some (StartSc, [13; 10; 59]%N ++ a ++ e, r).
Proof.
  intros Hctx Ha He Hne Hr. apply best_longest.
  - apply context_value; [exact Hctx|]. destruct g; cbn; tauto.
  - unfold matches. rewrite re_startsc. cbn [app N.eqb Pos.eqb andb]. rewrite line_end_split by assumption. reflexivity.
  - intros t m x Hi Hn M. apply context_In in Hi; [|exact Hctx]. destruct Hi as [_ Hi]. unfold matches in M.
    destruct (tok_eq_dec t End) as [->|NE]; [apply end_match in M; subst; cbn; lia|].
    destruct (tok_eq_dec t Ign1) as [->|N1]; [rewrite re_ign1 in M; cbn in M; injection M as <- <-; cbn; lia|].
    exfalso. cbn [app] in M. rewrite re_none in M; [discriminate| |]; destruct g; cbn in Hi;
      repeat (destruct Hi as [<-|Hi]; [try congruence; reflexivity|]); destruct Hi.
Qed.
Lemma pick_start g R m s : place g R -> In StartSc R ->
  (exists e x y, m = e ++ 59%N :: x ++ y /\ (e = [10%N] \/ e = [13; 10]%N) /\ Forall (fun c => ~ eol c) x /\ y <> [] /\ Forall eol y /\ line_over s) ->
  picked g R StartSc m s.
Proof.
  intros P H (e & x & y & -> & He & Hx & Hy & Hy2 & Hs). unfold picked.
  assert (value_context g R) as V by (apply (place_context g R StartSc P H); cbn; tauto).
  destruct He as [->| ->]; cbn [app]; rewrite <- app_assoc.
  - apply (start_best g R x y s); [now left|now apply not_eol_true|now apply eols_true|exact Hy|now apply line_over_eol].
  - apply (start_crlf_best g R x y s); [exact V|now apply not_eol_true|now apply eols_true|exact Hy|now apply line_over_eol].
Qed.
Theorem pick g R t m s : place g R -> In t R -> token_at g t m s -> picked g R t m s.
Proof.
  intros P H T. destruct t; cbn [token_at] in T; try contradiction.
  - exfalso. apply (proj2 (place_normal g R _ P H)). reflexivity.
  - destruct T as [-> ->]. now apply pick_comma.
  - destruct T. now apply pick_loop.
  - destruct T as (w & n & E1 & E2 & E3 & E4). apply pick_save; eauto.
  - destruct T. now apply pick_save_end.
  - destruct T. now apply pick_name.
  - destruct T as (w & n & E1 & E2 & E3 & E4). apply pick_heading; eauto.
  - now apply pick_start.
  - exfalso. pose proof (proj1 (place_normal g R _ P H)) as X. cbn in X. intuition discriminate.
  - exfalso. pose proof (proj1 (place_normal g R _ P H)) as X. cbn in X. intuition discriminate.
  - destruct T as [C ->]. apply pick_char; auto. cbn; tauto.
  - destruct T as [C ->]. apply pick_char; auto. cbn; tauto.
  - destruct T as [C ->]. apply pick_char; auto. cbn; tauto.
  - destruct T as [C ->]. apply pick_char; auto. cbn; tauto.
  - destruct T. now apply pick_triple.
  - destruct T. now apply pick_single.
  - destruct T as [T|[C T]]; [now apply pick_unquoted|now apply pick_quoted1].
Qed.

(** ** Reaching the token *)
Lemma begins_other c s : c <> 10%N -> c <> 13%N -> begins (c :: s).
Proof. intros H1 H2. unfold begins. destruct c as [|[[[[p|p|]|[p|p|]|]|[[p|p|]|[p|p|]|]|]|[[[p|p|]|[p|p|]|]|[[p|p|]|[p|p|]|]|]|]]; try exact I; congruence. Qed.
Lemma token_begins g t m s : t <> ScLine -> t <> EndSc -> token_at g t m s -> begins (m ++ s) /\ m <> [].
Proof.
  assert (forall c x, c <> 10%N -> c <> 13%N -> begins ((c :: x) ++ s) /\ c :: x <> []) as K by (intros c x H1 H2; split; [now apply begins_other|discriminate]).
  assert (forall w m d, lower m = d :: w -> (97 <= d <= 122)%N -> exists c x, m = c :: x /\ c <> 10%N /\ c <> 13%N) as W.
  { intros w m' d E L. destruct (word_first d w m' E L) as (c & x & -> & Hc & _). exists c, x. split; [reflexivity|]. lia. }
  intros N1 N2 T. destruct t; cbn [token_at] in T; try contradiction; try congruence.
  - destruct T as [_ ->]. apply K; discriminate.
  - destruct T as [_ ->]. apply K; discriminate.
  - destruct T as [E _]. destruct (W _ _ _ E) as (c & x & -> & H1 & H2); [split; vm_compute; discriminate|]. now apply K.
  - destruct T as (w & n & -> & E & _). destruct (W _ _ _ E) as (c & x & -> & H1 & H2); [split; vm_compute; discriminate|]. now apply K.
  - destruct T as [E _]. destruct (W _ _ _ E) as (c & x & -> & H1 & H2); [split; vm_compute; discriminate|]. now apply K.
  - destruct T as [(r & -> & _) _]. apply K; discriminate.
  - destruct T as (w & n & -> & E & _). destruct (W _ _ _ E) as (c & x & -> & H1 & H2); [split; vm_compute; discriminate|]. now apply K.
  - destruct T as (e & x & y & -> & [->| ->] & _); (split; [reflexivity|discriminate]).
  - destruct T as [_ ->]. apply K; discriminate.
  - destruct T as [_ ->]. apply K; discriminate.
  - destruct T as [_ ->]. apply K; discriminate.
  - destruct T as [_ ->]. apply K; discriminate.
  - destruct T as [_ (q & x & [->| ->] & -> & _)]; apply K; discriminate.
  - destruct T as [_ (q & x & [->| ->] & -> & _)]; apply K; discriminate.
  - destruct T as [(c & r & -> & Hs & _)|[_ (q & x & [->| ->] & -> & _)]]; apply K; try discriminate; intros ->; discriminate.
Qed.
Lemma place_scan g R t w m s : place g R -> In t R -> token_at g t m s -> spaced w (m ++ s) -> scan g R (w ++ m ++ s) = Ret (t, m, s).
Proof.
  intros P H T W. destruct (place_normal g R t P H) as [Hn _].
  assert (t <> ScLine /\ t <> EndSc) as [N1 N2] by (split; intros ->; cbn in Hn; intuition discriminate).
  destruct (token_begins g t m s N1 N2 T) as [B _]. destruct (place_ts g R P) as (H1 & H2 & H3).
  apply scan_unique; [now apply spaced_skipped|apply best_wins; now apply pick|]. destruct t; try reflexivity; destruct T.
Qed.
Lemma colon_scan g w s : cif2 g -> spaced w (58%N :: s) -> scan g [Colon] (w ++ 58%N :: s) = Ret (Colon, [58%N], s).
Proof.
  intros C W. apply (scan_unique g [Colon] w Colon [58%N] s); [|apply best_wins; now apply pick_colon|reflexivity].
  apply spaced_skipped; [| | |exact I|exact W].
  - destruct C as [->| ->]; cbn; tauto.
  - destruct C as [->| ->]; cbn; tauto.
  - intros t H. destruct C as [->| ->]; cbn in H |- *; tauto.
Qed.
Lemma end_scan_spaced g R w : place g R -> In End R -> spaced w [] -> scan g R w = Ret (End, [], []).
Proof.
  intros P H W. destruct (place_ts g R P) as (H1 & H2 & H3). pose proof (spaced_skipped g (accepted g R) H1 H2 H3 w [] I W) as S.
  rewrite <- (app_nil_r w). change (w ++ []) with (w ++ [] ++ @nil N). apply scan_unique; [exact S| |reflexivity].
  apply best_wins.
  assert (forall ts best, (best = None /\ In End ts) \/ best = Some (End, [], []) -> best_match g ts [] best = Some (End, [], [])) as K.
  { induction ts as [|t ts IH]; intros best Hb; [destruct Hb as [[_ []]| ->]; reflexivity|]. cbn [best_match].
    destruct (tok_eq_dec t End) as [->|N].
    - apply IH. right. destruct Hb as [[-> _]| ->]; reflexivity.
    - rewrite re_none_nil by (destruct t; try congruence; destruct g; reflexivity).
      apply IH. destruct Hb as [[-> [Hb|Hb]]| ->]; [congruence|left; auto|now right]. }
  apply K. left. split; [reflexivity|]. apply place_accepts; auto. destruct g; cbn; tauto.
Qed.
