(** Facts about the token expressions. *)
From Coq Require Import String Ascii List NArith ZArith Bool Lia.
From Verif Require Import PyBase PyFacts RegexModel RegexFacts ScanModel.
Import ListNotations.
Open Scope nat_scope.

(** ** First characters *)
Fixpoint nullable (r : re) : bool :=
  match r with
  | RChr _ => false
  | RSeq a b => nullable a && nullable b
  | RAlt a b => nullable a || nullable b
  | _ => true
  end.
Fixpoint first_ok (r : re) (c : N) : bool :=
  match r with
  | RChr p => p c
  | RSeq a b => first_ok a c || (nullable a && first_ok b c)
  | RAlt a b => first_ok a c || first_ok b c
  | RStar a | RLazy a => first_ok a c
  | _ => false
  end.

Lemma rmatch_nil_nullable r s t : In ([], t) (rmatch r s) -> nullable r = true.
Proof.
  revert s t. induction r; intros s t H; cbn [nullable]; try reflexivity; cbn [rmatch] in H.
  - destruct s as [|d s]; [contradiction|]. destruct (p d); [|contradiction]. destruct H as [H|[]]. discriminate.
  - apply in_flat_map in H. destruct H as [[c1 t1] [H1 H2]]. apply in_map_iff in H2.
    destruct H2 as [[c2 t2] [E H2]]. cbn [fst snd] in *. injection E as E1 E2.
    apply app_eq_nil in E1. destruct E1 as [-> ->]. rewrite (IHr1 _ _ H1), (IHr2 _ _ H2). reflexivity.
  - apply in_app_or in H. destruct H as [H|H]; [rewrite (IHr1 _ _ H)|rewrite (IHr2 _ _ H), orb_true_r]; reflexivity.
Qed.

Lemma rmatch_first r c s d m t : In (d :: m, t) (rmatch r (c :: s)) -> first_ok r c = true.
Proof.
  revert c s d m t. induction r; intros c0 s d m t H; cbn [first_ok]; cbn [rmatch] in H.
  - destruct H as [H|[]]. discriminate.
  - destruct (p c0) eqn:E; [reflexivity|contradiction].
  - apply in_flat_map in H. destruct H as [[c1 t1] [H1 H2]]. apply in_map_iff in H2.
    destruct H2 as [[c2 t2] [E H2]]. cbn [fst snd] in *. injection E as E1 E2.
    destruct c1 as [|e c1].
    + pose proof (rmatch_split _ _ _ _ H1) as S1. cbn in S1. subst t1. cbn in E1. subst c2.
      rewrite (rmatch_nil_nullable _ _ _ H1), (IHr2 _ _ _ _ _ H2). now rewrite orb_true_r.
    + rewrite (IHr1 _ _ _ _ _ H1). reflexivity.
  - apply in_app_or in H. destruct H as [H|H].
    + rewrite (IHr1 _ _ _ _ _ H). reflexivity.
    + rewrite (IHr2 _ _ _ _ _ H). now rewrite orb_true_r.
  - cbn [length star_go] in H. apply in_app_or in H. destruct H as [H|[H|[]]]; [|discriminate].
    apply in_flat_map in H. destruct H as [[c1 t1] [H1 H2]]. cbn [fst snd] in *.
    destruct c1 as [|e c1]; [contradiction|exact (IHr _ _ _ _ _ H1)].
  - cbn [length lazy_go] in H. destruct H as [H|H]; [discriminate|].
    apply in_flat_map in H. destruct H as [[c1 t1] [H1 H2]]. cbn [fst snd] in *.
    destruct c1 as [|e c1]; [contradiction|exact (IHr _ _ _ _ _ H1)].
  - destruct (rmatch r (c0 :: s)); [contradiction|]. destruct H as [H|[]]. discriminate.
  - destruct (rmatch r (c0 :: s)); [|contradiction]. destruct H as [H|[]]. discriminate.
  - destruct (c0 =? 10)%N; [|contradiction]. destruct H as [H|[]]. discriminate.
  - destruct s as [|e s]; [destruct (c0 =? 10)%N; [|contradiction]|contradiction]. destruct H as [H|[]]. discriminate.
Qed.

Lemma rmatch_none r c s : nullable r = false -> first_ok r c = false -> rmatch r (c :: s) = [].
Proof.
  intros Hn Hf. destruct (rmatch r (c :: s)) as [|[[|d m] t] l] eqn:E; [reflexivity| |].
  - assert (nullable r = true) as H by (apply (rmatch_nil_nullable r (c :: s) t); rewrite E; now left). congruence.
  - assert (first_ok r c = true) as H by (apply (rmatch_first r c s d m t); rewrite E; now left). congruence.
Qed.
Lemma rmatch_none_nil r : nullable r = false -> rmatch r [] = [].
Proof.
  intros Hn. destruct (rmatch r []) as [|[m t] l] eqn:E; [reflexivity|].
  assert (In (m, t) (rmatch r [])) as H by (rewrite E; now left).
  pose proof (rmatch_split _ _ _ _ H) as S. symmetry in S. apply app_eq_nil in S. destruct S as [-> ->].
  apply rmatch_nil_nullable in H. congruence.
Qed.
Lemma re_none r c s : nullable r = false -> first_ok r c = false -> re_match r (c :: s) = None.
Proof. intros Hn Hf. unfold re_match. now rewrite rmatch_none. Qed.
Lemma re_none_nil r : nullable r = false -> re_match r [] = None.
Proof. intros Hn. unfold re_match. now rewrite rmatch_none_nil. Qed.

(** ** First matches *)
Lemma hd_map_pre a l : hd_error (map (pre a) l) = option_map (pre a) (hd_error l).
Proof. now destruct l. Qed.
Lemma hd_app {A} (l1 l2 : list A) : hd_error (l1 ++ l2) = match hd_error l1 with Some x => Some x | None => hd_error l2 end.
Proof. now destruct l1. Qed.

Lemma re_seq a b s m t m2 t2 :
  re_match a s = Some (m, t) -> re_match b t = Some (m2, t2) -> re_match (RSeq a b) s = Some (m ++ m2, t2).
Proof.
  unfold re_match. rewrite rmatch_seq. destruct (rmatch a s) as [|x l]; [discriminate|].
  cbn [hd_error]. intros E. injection E as ->. intros H. cbn [flat_map fst snd].
  destruct (rmatch b t) as [|y l']; [discriminate|]. cbn in H. injection H as ->. reflexivity.
Qed.
Lemma re_seq_pre a b s m t x :
  re_match a s = Some (m, t) -> re_match b t = Some x -> re_match (RSeq a b) s = Some (pre m x).
Proof. intros H1 H2. destruct x as [m2 t2]. exact (re_seq _ _ _ _ _ _ _ H1 H2). Qed.
Lemma re_alt a b s :
  re_match (RAlt a b) s = match re_match a s with Some x => Some x | None => re_match b s end.
Proof. unfold re_match. cbn [rmatch]. apply hd_app. Qed.
Lemma re_chr p c s : re_match (RChr p) (c :: s) = if p c then Some ([c], s) else None.
Proof. unfold re_match. cbn [rmatch]. now destruct (p c). Qed.
Lemma re_seq_chr p b c s :
  re_match (RSeq (RChr p) b) (c :: s) = if p c then option_map (pre [c]) (re_match b s) else None.
Proof. unfold re_match. rewrite rmatch_seq_chr. destruct (p c); [apply hd_map_pre|reflexivity]. Qed.
Lemma re_star_chr p s : re_match (RStar (RChr p)) s = Some (span p s).
Proof. unfold re_match. rewrite rmatch_star_chr. apply chr_star_hd. Qed.
Lemma re_seq_star p b s : (forall c t, p c = true -> rmatch b (c :: t) = []) ->
  re_match (RSeq (RStar (RChr p)) b) s = option_map (pre (fst (span p s))) (re_match b (snd (span p s))).
Proof. intros H. unfold re_match. rewrite seq_star_chr by exact H. apply hd_map_pre. Qed.
Lemma re_plus_chr p s :
  re_match (rplus (RChr p)) s = match span p s with ([], _) => None | x => Some x end.
Proof.
  unfold rplus. destruct s as [|c s]; [reflexivity|]. rewrite re_seq_chr. cbn [span].
  destruct (p c); [|reflexivity]. rewrite re_star_chr. destruct (span p s). reflexivity.
Qed.

Lemma hd_tl {A} (l : list A) x : hd_error l = Some x -> l = x :: tl l.
Proof. destruct l; [discriminate|]. cbn. intros H. injection H as ->. reflexivity. Qed.

(** A repeated expression whose first match on every tail of [v] is one character. *)
Lemma star_go_hd m n s c cs r :
  m s = (c :: cs, r) :: tl (m s) -> (forall k, exists x, hd_error (star_go m k r) = Some x) ->
  hd_error (star_go m (Datatypes.S n) s) = option_map (pre (c :: cs)) (hd_error (star_go m n r)).
Proof.
  intros E H. cbn [star_go]. rewrite E. cbn [flat_map fst snd]. destruct (H n) as [x Hx].
  destruct (star_go m n r) as [|y l]; [discriminate|]. reflexivity.
Qed.
Lemma star_go_some m k r : exists x, hd_error (star_go m k r) = Some x.
Proof.
  destruct k as [|k]; cbn [star_go]; [eexists; reflexivity|].
  match goal with |- context [hd_error (?a ++ ?b)] => destruct a end; eexists; reflexivity.
Qed.
Lemma re_star_chars body v e n :
  (forall v1 c v2, v = v1 ++ c :: v2 -> hd_error (rmatch body (c :: v2 ++ e)) = Some ([c], v2 ++ e)) ->
  rmatch body e = [] -> length v <= n ->
  hd_error (star_go (rmatch body) n (v ++ e)) = Some (v, e).
Proof.
  intros Hv He. revert n. induction v as [|c v IH]; intros n Hn.
  - cbn [app]. destruct n; cbn [star_go]; [reflexivity|]. rewrite He. reflexivity.
  - destruct n as [|n]; [cbn in Hn; lia|]. cbn [app].
    pose proof (Hv [] c v eq_refl) as H0.
    rewrite (star_go_hd _ n (c :: v ++ e) c [] (v ++ e)).
    + rewrite IH; [reflexivity| |cbn in Hn; lia]. intros v1 d v2 E. apply (Hv (c :: v1)). now rewrite E.
    + destruct (rmatch body (c :: v ++ e)); [discriminate|]. cbn in H0. injection H0 as ->. reflexivity.
    + intros k. apply star_go_some.
Qed.
Lemma re_star_body body v e :
  (forall v1 c v2, v = v1 ++ c :: v2 -> re_match body (c :: v2 ++ e) = Some ([c], v2 ++ e)) ->
  rmatch body e = [] -> re_match (RStar body) (v ++ e) = Some (v, e).
Proof.
  intros Hv He. unfold re_match. cbn [rmatch]. apply re_star_chars; [exact Hv|exact He|].
  rewrite app_length. lia.
Qed.

(** ** Line ends *)
Definition is_eol (c : N) : bool := (c =? 10)%N || (c =? 13)%N.
Definition eol_body : re := RAlt (RSeq (is 13) (is 10)) (RAlt (is 13) (is 10)).
Lemma eol_body_hd s :
  hd_error (rmatch eol_body s) =
  match s with
  | [] => None
  | c :: t => if (c =? 13)%N then match t with d :: t' => if (d =? 10)%N then Some ([c; d], t') else Some ([c], t) | [] => Some ([c], t) end
              else if (c =? 10)%N then Some ([c], t) else None
  end.
Proof.
  unfold eol_body, is. cbn [rmatch]. destruct s as [|c t]; [reflexivity|].
  rewrite (N.eqb_sym 13 c), (N.eqb_sym 10 c). destruct (c =? 13)%N eqn:E1.
  - destruct t as [|d t]; [reflexivity|]. cbn [flat_map fst snd]. rewrite (N.eqb_sym 10 d).
    destruct (d =? 10)%N; reflexivity.
  - destruct (c =? 10)%N eqn:E2; reflexivity.
Qed.
Lemma eol_star_hd n s : length s <= n -> hd_error (star_go (rmatch eol_body) n s) = Some (span is_eol s).
Proof.
  revert s. induction n as [n IH] using lt_wf_ind. intros s Hn.
  destruct s as [|c s].
  - destruct n; reflexivity.
  - destruct n as [|n]; [cbn in Hn; lia|]. pose proof (eol_body_hd (c :: s)) as H0; cbv beta iota in H0. cbn [span]. unfold is_eol at 1.
    destruct (c =? 13)%N eqn:E1; try rewrite E1 in H0.
    + rewrite orb_true_r. destruct s as [|d s].
      * rewrite (star_go_hd _ n _ c [] []).
        -- rewrite IH by (cbn; lia). reflexivity.
        -- apply hd_tl; exact H0.
        -- intros k. apply star_go_some.
      * destruct (d =? 10)%N eqn:E2; try rewrite E2 in H0.
        -- rewrite (star_go_hd _ n _ c [d] s).
           ++ rewrite IH by (cbn in *; lia). assert (is_eol d = true) as Hd by (unfold is_eol; now rewrite E2). cbn [span]. rewrite Hd.
              destruct (span is_eol s). reflexivity.
           ++ apply hd_tl; exact H0.
           ++ intros k. apply star_go_some.
        -- rewrite (star_go_hd _ n _ c [] (d :: s)).
           ++ rewrite IH by (cbn in *; lia). destruct (span is_eol (d :: s)). reflexivity.
           ++ apply hd_tl; exact H0.
           ++ intros k. apply star_go_some.
    + destruct (c =? 10)%N eqn:E2; try rewrite E2 in H0; cbn [orb].
      * rewrite (star_go_hd _ n _ c [] s).
        -- rewrite IH by (cbn in *; lia). destruct (span is_eol s). reflexivity.
        -- apply hd_tl; exact H0.
        -- intros k. apply star_go_some.
      * cbn [star_go]. destruct (rmatch eol_body (c :: s)); [reflexivity|cbn [hd_error] in H0; discriminate].
Qed.
Lemma re_eol_star s : re_match (RStar eol_body) s = Some (span is_eol s).
Proof. unfold re_match. cbn [rmatch]. apply eol_star_hd. lia. Qed.
Lemma re_eols_span s : re_match re_eols s = match span is_eol s with ([], _) => None | x => Some x end.
Proof.
  unfold re_eols, rplus. fold eol_body. destruct s as [|c s]; [reflexivity|].
  pose proof (eol_body_hd (c :: s)) as H0; cbv beta iota in H0. cbn [span]. unfold is_eol at 1.
  destruct (c =? 13)%N eqn:E1; try rewrite E1 in H0.
  - rewrite orb_true_r. destruct s as [|d s].
    + rewrite (re_seq_pre _ _ _ _ _ _ H0 (re_eol_star _)). reflexivity.
    + destruct (d =? 10)%N eqn:E2; try rewrite E2 in H0.
      * rewrite (re_seq_pre _ _ _ _ _ _ H0 (re_eol_star _)).
        assert (is_eol d = true) as Hd by (unfold is_eol; now rewrite E2). cbn [span]. rewrite Hd. destruct (span is_eol s). reflexivity.
      * rewrite (re_seq_pre _ _ _ _ _ _ H0 (re_eol_star _)).
        destruct (span is_eol (d :: s)). reflexivity.
  - destruct (c =? 10)%N eqn:E2; try rewrite E2 in H0; cbn [orb].
    + rewrite (re_seq_pre _ _ _ _ _ _ H0 (re_eol_star _)).
      destruct (span is_eol s). reflexivity.
    + unfold re_match. rewrite rmatch_seq. destruct (rmatch eol_body (c :: s)); [reflexivity|cbn [hd_error] in H0; discriminate].
Qed.
