(** Reading text fields. *)
From Coq Require Import String Ascii List NArith ZArith Bool Lia ZifyBool ZifyN ZifyNat.
From Verif Require Import PyBase PyFacts RegexModel RegexFacts FoldModel ScanModel ReadModel ParseModel
  ScanFacts ScanSpec ScanProofs ScanProofs2 ScanProofs3.
Import ListNotations.
Open Scope nat_scope.

(** ** Lines within a text field *)
Lemma span_false p s : match s with [] => True | c :: _ => p c = false end -> span p s = ([], s).
Proof. destruct s as [|c s]; [reflexivity|]. cbn. now intros ->. Qed.
Lemma line_end_split a e r : Forall (fun c => not_eol c = true) a -> Forall (fun c => is_eol c = true) e -> e <> [] ->
  match r with [] => True | c :: _ => is_eol c = false end -> line_end (a ++ e ++ r) = Some (a ++ e, r).
Proof.
  intros Ha He Hne Hr. unfold line_end. rewrite (span_prefix _ a (e ++ r) Ha).
  - cbn [fst snd]. rewrite (span_prefix _ e r He) by exact Hr. destruct e; [congruence|reflexivity].
  - destruct e as [|c e]; [congruence|]. cbn. apply Forall_cons_iff in He. rewrite not_eol_spec, (proj1 He). reflexivity.
Qed.
Definition sc_patterns (g : grammar) : list tok := accepted g [ScLine; EndSc].
Lemma sc_accepted g : sc_patterns g = [Ign1; Ign2; ScLine; EndSc].
Proof. destruct g; reflexivity. Qed.

(** What the second ignore pattern takes of a line. *)
Lemma seq_star_upto p b a c r : Forall (fun x => p x = true) a -> p c = false ->
  (forall x t, In x a -> rmatch b (x :: t) = []) ->
  rmatch (RSeq (RStar (RChr p)) b) (a ++ c :: r) = map (pre a) (rmatch b (c :: r)).
Proof.
  intros Ha Hc Hb. rewrite rmatch_seq, rmatch_star_chr. induction Ha as [|x a Hx Ha IH].
  - cbn [app chr_star]. rewrite Hc. cbn [flat_map fst snd]. now rewrite app_nil_r.
  - cbn [app chr_star]. rewrite Hx, flat_map_app. cbn [flat_map fst snd]. rewrite (Hb x _ (or_introl eq_refl)). cbn [map app].
    rewrite app_nil_r, flat_map_map.
    transitivity (map (pre [x]) (flat_map (fun cr => map (pre (fst cr)) (rmatch b (snd cr))) (chr_star p (a ++ c :: r)))).
    + rewrite map_flat_map. apply flat_map_ext. intros [y z]. cbn [pre fst snd]. now rewrite pre_pre.
    + rewrite IH; [now rewrite pre_pre|]. intros y t Hy. apply Hb. now right.
Qed.
Lemma re_ign2 g a r : Forall (fun c => is_eol c = false) a ->
  re_match (tok_re g Ign2) (35%N :: a ++ 10%N :: r) =
  if first_is 59 r then Some (35%N :: a, 10%N :: r) else Some (35%N :: a ++ [10%N], r).
Proof.
  intros Ha. cbn [tok_re rseq]. rewrite re_alt. unfold is at 1 3. rewrite !re_seq_chr. cbn [N.eqb Pos.eqb].
  assert (Forall (fun c => negb (c =? 10)%N = true) a) as Hd
    by (eapply Forall_impl; [|exact Ha]; intros c Hc; unfold is_eol in Hc; lia).
  assert (re_match (RSeq (RStar rdot) (RSeq (one_of [10; 13]%N) (RNot (is 59)))) (a ++ 10%N :: r)
          = if first_is 59 r then None else Some (a ++ [10%N], r)) as ->.
  { unfold re_match, rdot. rewrite seq_star_upto; [|exact Hd|reflexivity|].
    - unfold one_of. rewrite rmatch_seq_chr. cbn [existsb N.eqb Pos.eqb orb]. pose proof (re_not_semi r) as H. unfold re_match in H.
      rewrite !hd_map_pre, H. destruct (first_is 59 r); reflexivity.
    - intros x t Hx. unfold one_of. rewrite rmatch_seq_chr. rewrite Forall_forall in Ha. specialize (Ha x Hx). unfold is_eol in Ha.
      cbn [existsb]. now rewrite orb_false_r, Ha. }
  destruct (first_is 59 r); [|reflexivity]. unfold rdot. rewrite re_star_chr.
  rewrite (span_prefix (fun c => negb (c =? 10)%N) a (10%N :: r) Hd); reflexivity.
Qed.

Lemma scline_wins g c a e r : (c =? 59)%N = false -> is_eol c = false -> Forall (fun c => not_eol c = true) a ->
  Forall (fun c => is_eol c = true) e -> e <> [] -> match r with [] => True | d :: _ => is_eol d = false end ->
  (forall m x, re_match (tok_re g Ign2) (c :: a ++ e ++ r) = Some (m, x) -> length m < length (c :: a ++ e)) ->
  best_match g (sc_patterns g) (c :: a ++ e ++ r) None = Some (ScLine, c :: a ++ e, r).
Proof.
  intros Hc Hn Ha He Hne Hr Hi. rewrite sc_accepted. apply best_longest; [cbn; tauto| |].
  - unfold matches. rewrite re_scline, Hc, Hn. cbn [orb]. rewrite line_end_split by assumption. reflexivity.
  - intros t m x Ht Hne' M. cbn in Ht. destruct Ht as [<-|[<-|[<-|[<-|[]]]]]; [| |congruence|].
    + unfold matches in M. rewrite re_ign1 in M. destruct (_ || _)%bool; [|discriminate]. injection M as <- <-.
      cbn [length]. rewrite app_length. destruct e; [congruence|]. cbn. lia.
    + exact (Hi m x M).
    + unfold matches in M. cbn [tok_re] in M. unfold is in M. rewrite re_chr in M. rewrite N.eqb_sym, Hc in M. discriminate.
Qed.

(** ** Parser steps *)
Lemma take_pend g t m restrict inp : In t restrict -> restrict <> [] ->
  take g t (PS inp (Some (t, m, restrict))) = Ret (m, PS inp None).
Proof.
  intros Hi Hne. unfold take, token. cbn [p_pend]. destruct restrict as [|x l]; [congruence|].
  cbn [forallb]. rewrite (proj2 (tmem_In t (x :: l)) Hi). cbn [andb negb obind].
  assert (tok_eqb t t = true) as -> by now apply tok_eqb_eq. reflexivity.
Qed.
Lemma peek_fresh g restrict s t m r : scan g restrict s = Ret (t, m, r) ->
  peek g restrict (PS s None) = Ret (t, PS r (Some (t, m, restrict))).
Proof. intros H. unfold peek, token. cbn [p_pend p_inp]. rewrite H. reflexivity. Qed.
Lemma peek_pend g restrict t m r0 inp : restrict <> [] -> (forall x, In x restrict -> In x r0) ->
  peek g restrict (PS inp (Some (t, m, r0))) = Ret (t, PS inp (Some (t, m, r0))).
Proof.
  intros Hne Hi. unfold peek, token. cbn [p_pend]. destruct restrict as [|x l]; [congruence|].
  destruct r0 as [|y r0]; [reflexivity|].
  assert (forallb (fun r => tmem r (y :: r0)) (x :: l) = true) as ->; [|reflexivity].
  apply forallb_forall. intros z Hz. apply tmem_In. now apply Hi.
Qed.
Lemma take_fresh g t s m r : scan g [t] s = Ret (t, m, r) -> take g t (PS s None) = Ret (m, PS r None).
Proof.
  intros H. unfold take, token. cbn [p_pend p_inp]. rewrite H. cbn [obind].
  assert (tok_eqb t t = true) as -> by now apply tok_eqb_eq. reflexivity.
Qed.

Lemma sc_rest_line fuel g acc s m r : best_match g (sc_patterns g) s None = Some (ScLine, m, r) ->
  sc_rest (S fuel) g acc (PS s None) = sc_rest fuel g (acc ++ m) (PS r None).
Proof.
  intros H. cbn [sc_rest]. rewrite (peek_fresh _ _ _ ScLine m r) by (now apply scan_first).
  cbn [obind]. change (tok_eqb ScLine ScLine) with true. cbv iota.
  rewrite take_pend by (cbn; tauto || discriminate). reflexivity.
Qed.
Lemma sc_rest_end fuel g acc t : sc_rest fuel g acc (PS (59%N :: t) None) = Ret (acc ++ [59%N], PS t None).
Proof.
  assert (best_match g (sc_patterns g) (59%N :: t) None = Some (EndSc, [59%N], t)) as H.
  { rewrite sc_accepted. apply best_longest; [cbn; tauto|reflexivity|].
    intros x m r Hx Hne M. exfalso. unfold matches in M. rewrite re_none in M; [discriminate| |];
      cbn in Hx; destruct Hx as [<-|[<-|[<-|[<-|[]]]]]; try reflexivity; congruence. }
  destruct fuel; cbn [sc_rest]; rewrite (peek_fresh _ _ _ EndSc [59%N] t) by (now apply scan_first);
    cbn [obind]; change (tok_eqb EndSc ScLine) with false; cbv iota;
    rewrite take_pend by (cbn; tauto || discriminate); reflexivity.
Qed.
Lemma sc_rest_skip fuel g acc m r t : best_match g (sc_patterns g) (m ++ r) None = Some (t, m, r) -> ignored t = true -> m <> [] ->
  sc_rest fuel g acc (PS (m ++ r) None) = sc_rest fuel g acc (PS r None).
Proof.
  intros H Hi Hm.
  assert (scan g [ScLine; EndSc] (m ++ r) = scan g [ScLine; EndSc] r) as E.
  { unfold scan. rewrite <- (app_nil_r m) at 2. apply skipped_go; [|rewrite app_nil_r; lia|lia].
    eapply sk_more; [|exact Hi|exact Hm|constructor]. apply best_wins. exact H. }
  destruct fuel; cbn [sc_rest]; unfold peek, token; cbn [p_pend p_inp]; now rewrite E.
Qed.

(** ** Texts as lines *)
Definition body (ls : list str) : str := concat (map (fun l => l ++ [10%N]) ls).
Lemma body_app a b : body (a ++ b) = body a ++ body b.
Proof. unfold body. now rewrite map_app, concat_app. Qed.
Lemma body_cons l ls : body (l :: ls) = l ++ 10%N :: body ls.
Proof. unfold body. cbn. now rewrite <- app_assoc. Qed.
Lemma body_blank k : body (repeat [] k) = repeat 10%N k.
Proof. induction k; [reflexivity|]. cbn [repeat]. rewrite body_cons, IHk. reflexivity. Qed.
Lemma join_body l ls : join_lines (l :: ls) ++ [10%N] = body (l :: ls).
Proof.
  revert l. induction ls as [|l2 ls IH]; intros l; [cbn; now rewrite app_nil_r|].
  rewrite body_cons, <- IH. cbn [join_lines]. now rewrite <- app_assoc.
Qed.
Lemma leading_blanks (ls : list str) : exists k ls2, ls = repeat [] k ++ ls2 /\ match ls2 with [] => True | l :: _ => l <> [] end.
Proof.
  induction ls as [|[|c l] ls (k & ls2 & -> & H)].
  - exists 0, []. split; [reflexivity|exact I].
  - exists (S k), ls2. split; [reflexivity|exact H].
  - exists 0, ((c :: l) :: repeat [] k ++ ls2). split; [reflexivity|discriminate].
Qed.
Lemma kept_blank k ls : kept (repeat [] k ++ ls) = repeat [] k ++ kept ls.
Proof. induction k; [reflexivity|]. cbn [repeat app kept lost]. now rewrite IHk. Qed.
Definition field_line (l : str) : Prop := one_line l /\ first_is 59 l = false.
Lemma one_line_eol l : one_line l -> Forall (fun c => is_eol c = false) l.
Proof.
  intros [H1 H2]. apply Forall_forall. intros c Hc. unfold is_eol.
  destruct (N.eqb_spec c 10); [subst; tauto|]. destruct (N.eqb_spec c 13); [subst; tauto|reflexivity].
Qed.
Lemma eol_not_eol l : Forall (fun c => is_eol c = false) l -> Forall (fun c => not_eol c = true) l.
Proof. apply Forall_impl. intros c H. now rewrite not_eol_spec, H. Qed.
Lemma body_follow ls t : match ls with [] => True | l :: _ => l <> [] end -> Forall field_line ls ->
  match body ls ++ 59%N :: t with [] => True | c :: _ => is_eol c = false end.
Proof.
  destruct ls as [|l ls]; [reflexivity|]. intros Hl H. apply Forall_cons_iff in H. destruct H as [[H _] _].
  rewrite body_cons. destruct l as [|c l]; [congruence|]. cbn. apply one_line_eol, Forall_cons_iff in H. tauto.
Qed.
Lemma repeat_eol k : Forall (fun c => is_eol c = true) (repeat 10%N k).
Proof. induction k; constructor; [reflexivity|assumption]. Qed.

Lemma sc_rest_lines g tail : forall n ls fuel acc, length ls <= n -> length ls <= fuel -> Forall field_line ls ->
  match ls with [] => True | l :: _ => l <> [] end ->
  sc_rest fuel g acc (PS (body ls ++ 59%N :: tail) None) = Ret (acc ++ body (kept ls) ++ [59%N], PS tail None).
Proof.
  induction n as [|n IH]; intros ls fuel acc Hn Hf Hls H1.
  - destruct ls; [|cbn in Hn; lia]. cbn [body map concat app kept]. apply sc_rest_end.
  - destruct ls as [|l ls]; [cbn [body map concat app kept]; apply sc_rest_end|].
    apply Forall_cons_iff in Hls. destruct Hls as [Hl Hls]. destruct l as [|c l]; [congruence|].
    destruct (leading_blanks ls) as (k & ls2 & -> & H2).
    destruct Hl as [Hl Hsc]. cbn in Hsc. pose proof (one_line_eol _ Hl) as He. apply Forall_cons_iff in He. destruct He as [Hec He].
    pose proof (proj2 (proj1 (Forall_app _ _ _) Hls)) as Hls2.
    assert (body ((c :: l) :: repeat [] k ++ ls2) ++ 59%N :: tail
            = c :: l ++ repeat 10%N (S k) ++ body ls2 ++ 59%N :: tail) as Eb.
    { rewrite body_cons, body_app, body_blank. cbn [app repeat]. rewrite <- !app_assoc. cbn [app]. now rewrite <- app_assoc. }
    destruct (lost (c :: l) (repeat [] k ++ ls2)) eqn:L.
    + cbn [kept]. rewrite L.
      assert (k = 0) as -> by (destruct k; [reflexivity|discriminate]). cbn [repeat app] in *.
      destruct ls2 as [|[|d l2] ls2]; try discriminate. cbn in L. apply N.eqb_eq in L. subst c.
      transitivity (sc_rest fuel g acc (PS ((35%N :: l ++ [10%N]) ++ body ((d :: l2) :: ls2) ++ 59%N :: tail) None)).
      { do 2 f_equal. etransitivity; [exact Eb|]. cbn [app]. now rewrite <- app_assoc. }
      rewrite (sc_rest_skip fuel g acc _ _ Ign2); [|clear IH|reflexivity|discriminate].
      * apply IH; [cbn in *; lia|cbn in *; lia|exact Hls|exact I || discriminate].
      * cbn [app]. rewrite <- app_assoc. cbn [app].
        apply Forall_cons_iff in Hls. destruct Hls as [[Hd Hd2] _].
        pose proof (re_ign2 g l (body ((d :: l2) :: ls2) ++ 59%N :: tail) He) as RI.
        rewrite body_cons in *. cbn [app first_is] in RI, Hd2. rewrite Hd2 in RI.
        assert (is_eol d = false) as Hde by (apply one_line_eol, Forall_cons_iff in Hd; tauto).
        assert (re_match (tok_re g ScLine) (35%N :: l ++ 10%N :: ((d :: l2) ++ 10%N :: body ls2) ++ 59%N :: tail)
                = Some (35%N :: l ++ [10%N], ((d :: l2) ++ 10%N :: body ls2) ++ 59%N :: tail)) as RS.
        { rewrite re_scline. cbn [N.eqb Pos.eqb is_eol orb].
          pose proof (line_end_split l [10%N] (((d :: l2) ++ 10%N :: body ls2) ++ 59%N :: tail) (eol_not_eol _ He)) as LE.
          cbn [app] in LE |- *. rewrite LE; [reflexivity|repeat constructor|discriminate|exact Hde]. }
        rewrite sc_accepted. apply best_wins. exists [Ign1], [ScLine; EndSc]. split; [reflexivity|]. split; [exact RI|]. split.
        -- intros t' m' r' [<-|[]] M. unfold matches in M. rewrite re_ign1 in M. cbn in M. discriminate.
        -- intros t' m' r' [<-|[<-|[]]] M; unfold matches in M.
           ++ rewrite RS in M. injection M as <- <-. cbn. lia.
           ++ cbn in M. discriminate.
    + cbn [kept]. rewrite L, kept_blank. destruct fuel as [|fuel]; [cbn in Hf; lia|].
      etransitivity; [apply f_equal, f_equal2; [exact Eb|reflexivity]|].
      rewrite (sc_rest_line fuel g acc _ (c :: l ++ repeat 10%N (S k)) (body ls2 ++ 59%N :: tail)).
      * cbn [length] in Hn, Hf. rewrite app_length in Hn, Hf. rewrite IH; [|unfold str in *; lia|unfold str in *; lia|exact Hls2|exact H2].
        f_equal. f_equal. rewrite <- !app_assoc. f_equal. rewrite !body_cons, body_app, body_blank. cbn [repeat].
        change ((c :: l) ++ 10%N :: ?x) with (c :: l ++ 10%N :: x). cbn [app]. f_equal. rewrite <- !app_assoc. cbn [app]. now rewrite <- app_assoc.
      * apply scline_wins; [exact Hsc|exact Hec|now apply eol_not_eol|apply repeat_eol|discriminate|now apply body_follow|].
        intros m x M. destruct (c =? 35)%N eqn:E35; [|rewrite re_ign2_none in M by exact E35; discriminate].
        apply N.eqb_eq in E35. subst c. cbn [repeat app] in M. rewrite re_ign2 in M by exact He.
        destruct (first_is 59 _) eqn:F.
        -- injection M as <- <-. cbn. rewrite app_length. cbn. lia.
        -- injection M as <- <-. cbn. rewrite !app_length. cbn. destruct k; [|cbn; lia]. exfalso.
           cbn [repeat app] in *. destruct ls2 as [|l2 ls2]; [discriminate F|]. destruct l2 as [|d l2]; [congruence|]. discriminate L.
Qed.
