(** What each token expression matches. *)
From Coq Require Import String Ascii List NArith ZArith Bool Lia ZifyBool ZifyN ZifyNat.
From Verif Require Import PyBase PyFacts RegexModel RegexFacts ScanModel ScanFacts ScanSpec.
Import ListNotations.
Open Scope nat_scope.

(** ** Words in either case *)
Definition word_char (c : N) : bool := (((65 <=? c) && (c <=? 90)) || (c =? 95))%N.
Lemma either_case_chr c : word_char c = true ->
  forall b s, rmatch (RSeq (either_case c) b) s =
    match s with x :: s' => if (lower_char c =? lower_char x)%N then map (pre [x]) (rmatch b s') else [] | [] => [] end.
Proof.
  intros Hc b s. unfold either_case, letter, is.
  destruct ((65 <=? c) && (c <=? 90))%N eqn:E.
  - rewrite rmatch_seq_alt, !rmatch_seq_chr. destruct s as [|x s]; [reflexivity|].
    destruct (c =? x)%N eqn:E1.
    + apply N.eqb_eq in E1. subst x. rewrite N.eqb_refl.
      assert ((c + 32 =? c)%N = false) as -> by lia. apply app_nil_r.
    + destruct (c + 32 =? x)%N eqn:E2.
      * apply N.eqb_eq in E2. subst x. cbn [app].
        assert ((lower_char c =? lower_char (c + 32))%N = true) as ->; [|reflexivity].
        unfold lower_char. rewrite E. assert (((65 <=? c + 32) && (c + 32 <=? 90))%N = false) as -> by lia. lia.
      * assert ((lower_char c =? lower_char x)%N = false) as ->; [|reflexivity].
        unfold lower_char. rewrite E. destruct ((65 <=? x) && (x <=? 90))%N eqn:E3; lia.
  - rewrite rmatch_seq_chr. destruct s as [|x s]; [reflexivity|].
    assert (c = 95%N) as -> by (unfold word_char in Hc; lia).
    replace (lower_char 95 =? lower_char x)%N with (95 =? x)%N; [reflexivity|].
    change (lower_char 95) with 95%N. unfold lower_char. destruct ((65 <=? x) && (x <=? 90))%N eqn:E3; lia.
Qed.


Lemma rseq_cons a l s : l <> [] -> rmatch (rseq (a :: l)) s = rmatch (RSeq a (rseq l)) s.
Proof. destruct l; [congruence|reflexivity]. Qed.
Lemma rmatch_seq_eps_r a s : rmatch (RSeq a REps) s = rmatch a s.
Proof.
  rewrite rmatch_seq. cbn [rmatch]. induction (rmatch a s) as [|[m t] l IH]; [reflexivity|].
  cbn [flat_map]. rewrite IH. cbn [map fst snd app]. unfold pre at 1. cbn [fst snd]. now rewrite app_nil_r.
Qed.
Lemma rseq_cons_seq a l b s : rmatch (RSeq (rseq (a :: l)) b) s = rmatch (RSeq a (RSeq (rseq l) b)) s.
Proof.
  destruct l as [|x l].
  - cbn [rseq]. rewrite !rmatch_seq. apply flat_map_ext. intros [m t]. cbn [fst snd]. now rewrite rmatch_seq_eps.
  - change (rseq (a :: x :: l)) with (RSeq a (rseq (x :: l))). apply rmatch_seq_assoc.
Qed.

Lemma rmatch_word_seq w b s : Forall (fun c => word_char c = true) w ->
  rmatch (RSeq (word_ci w) b) s =
  if starts_with (lower w) (lower s) then map (pre (firstn (length w) s)) (rmatch b (skipn (length w) s)) else [].
Proof.
  unfold word_ci. intros H. revert s. induction H as [|c w Hc Hw IH]; intros s.
  - cbn [map rseq]. rewrite rmatch_seq_eps. cbn. now rewrite pre_nil.
  - cbn [map]. rewrite rseq_cons_seq, (either_case_chr c Hc). destruct s as [|x s]; [reflexivity|].
    cbn [lower map starts_with length firstn skipn].
    destruct (lower_char c =? lower_char x)%N; [|reflexivity].
    rewrite IH. unfold lower. destruct (starts_with _ _); [|reflexivity].
    now rewrite pre_pre.
Qed.
Lemma rmatch_word w s : Forall (fun c => word_char c = true) w ->
  rmatch (word_ci w) s = if starts_with (lower w) (lower s) then [(firstn (length w) s, skipn (length w) s)] else [].
Proof.
  intros H. rewrite <- rmatch_seq_eps_r, rmatch_word_seq by exact H.
  destruct (starts_with _ _); [|reflexivity]. cbn. unfold pre. cbn. now rewrite app_nil_r.
Qed.
Lemma re_word w s : Forall (fun c => word_char c = true) w ->
  re_match (word_ci w) s = if starts_with (lower w) (lower s) then Some (firstn (length w) s, skipn (length w) s) else None.
Proof. intros H. unfold re_match. rewrite rmatch_word by exact H. now destruct (starts_with _ _). Qed.
Ltac words := repeat constructor.

Lemma starts_lower_length w s : starts_with w (lower s) = true -> length w <= length s.
Proof.
  revert s. induction w as [|c w IH]; intros s H; [cbn; lia|].
  destruct s as [|x s]; [discriminate|]. cbn in *. apply andb_prop in H. specialize (IH s (proj2 H)). lia.
Qed.

(** ** Undelimited values *)
Definition reserved_start (s : str) : bool :=
  starts_with (u "save_") (lower s) || starts_with (u "global_") (lower s)
  || starts_with (u "stop_") (lower s) || starts_with (u "data_") (lower s).

Lemma star_chr_nonempty p s : rmatch (RStar (RChr p)) s <> [].
Proof. rewrite rmatch_star_chr. destruct s as [|c s]; cbn; [discriminate|]. destruct (p c); [|discriminate]. destruct (map _ _); discriminate. Qed.
Lemma word_star_nil w p s : Forall (fun c => word_char c = true) w ->
  match rmatch (RSeq (word_ci w) (RStar (RChr p))) s with [] => false | _ => true end = starts_with (lower w) (lower s).
Proof.
  intros H. rewrite rmatch_word_seq by exact H. destruct (starts_with _ _); [|reflexivity].
  pose proof (star_chr_nonempty p (skipn (length w) s)). destruct (rmatch _ _); [congruence|reflexivity].
Qed.
Lemma isnil_app {A} (a b : list A) :
  match a ++ b with [] => false | _ => true end = match a with [] => false | _ => true end || match b with [] => false | _ => true end.
Proof. destruct a; [reflexivity|]. cbn. destruct b; reflexivity. Qed.
Lemma rmatch_alt a b s : rmatch (RAlt a b) s = rmatch a s ++ rmatch b s.
Proof. reflexivity. Qed.
Lemma reserved_spec s : match rmatch reserved s with [] => false | _ => true end = reserved_start s.
Proof.
  unfold reserved. rewrite !rmatch_alt, !isnil_app, !word_star_nil by words.
  unfold reserved_start. rewrite !orb_assoc. reflexivity.
Qed.

Lemma re_plain_match g s :
  re_match (re_plain g) s =
  if reserved_start s then None
  else match s with
       | c :: s' => if plain_first g c then Some (c :: fst (span (plain_next g) s'), snd (span (plain_next g) s')) else None
       | [] => None
       end.
Proof.
  unfold re_plain, re_match. rewrite rmatch_seq_not. pose proof (reserved_spec s) as R.
  destruct (rmatch reserved s) as [|x l]; rewrite <- R; [|reflexivity].
  fold (re_match (RSeq (RChr (plain_first g)) (RStar (RChr (plain_next g)))) s).
  destruct s as [|c s]; [reflexivity|]. rewrite re_seq_chr, re_star_chr.
  destruct (plain_first g c); reflexivity.
Qed.

(** ** Names and headings *)
Lemma re_word_plus w p s : Forall (fun c => word_char c = true) w ->
  re_match (RSeq (word_ci w) (rplus (RChr p))) s =
  if starts_with (lower w) (lower s)
  then match span p (skipn (length w) s) with
       | ([], _) => None
       | x => Some (pre (firstn (length w) s) x)
       end
  else None.
Proof.
  intros H. unfold re_match. rewrite rmatch_word_seq by exact H. destruct (starts_with _ _); [|reflexivity].
  rewrite hd_map_pre. fold (re_match (rplus (RChr p)) (skipn (length w) s)). rewrite re_plus_chr.
  destruct (span p _) as [[|c a] t]; reflexivity.
Qed.
Lemma re_name g s :
  re_match (tok_re g DataName) s =
  match s with
  | c :: s' => if (c =? 95)%N then match span (name_char g) s' with ([], _) => None | x => Some (pre [c] x) end else None
  | [] => None
  end.
Proof.
  cbn [tok_re]. destruct s as [|c s]; [reflexivity|]. unfold is. rewrite re_seq_chr, N.eqb_sym.
  destruct (c =? 95)%N; [|reflexivity]. rewrite re_plus_chr. destruct (span (name_char g) s) as [[|d a] t]; reflexivity.
Qed.

(** ** Text field lines *)
Lemma rmatch_eols_none c t : is_eol c = false -> rmatch re_eols (c :: t) = [].
Proof.
  intros H. apply rmatch_none; [reflexivity|]. unfold is_eol in H. cbn [first_ok nullable re_eols rplus is rseq].
  rewrite (N.eqb_sym 13 c), (N.eqb_sym 10 c). now destruct (c =? 10)%N, (c =? 13)%N.
Qed.
Lemma not_eol_spec c : not_eol c = negb (is_eol c).
Proof. unfold not_eol, not_in, is_eol. cbn. now rewrite orb_false_r. Qed.
Definition line_end (s : str) : option (str * str) :=
  match span is_eol (snd (span not_eol s)) with
  | ([], _) => None
  | (e, r) => Some (fst (span not_eol s) ++ e, r)
  end.
Lemma re_line s : re_match (RSeq (RStar (RChr not_eol)) re_eols) s = line_end s.
Proof.
  rewrite re_seq_star.
  - rewrite re_eols_span. unfold line_end. destruct (span is_eol _) as [[|c e] r]; reflexivity.
  - intros c t H. apply rmatch_eols_none. rewrite not_eol_spec in H. now destruct (is_eol c).
Qed.
Lemma re_scline g s :
  re_match (tok_re g ScLine) s =
  match s with
  | c :: s' => if (c =? 59)%N || is_eol c then None else option_map (pre [c]) (line_end s')
  | [] => None
  end.
Proof.
  cbn [tok_re rseq]. destruct s as [|c s]; [reflexivity|]. rewrite re_seq_chr, re_line.
  unfold not_in, is_eol. cbn [existsb]. destruct (c =? 59)%N, (c =? 13)%N, (c =? 10)%N; reflexivity.
Qed.
Lemma re_startsc g s :
  re_match (tok_re g StartSc) s =
  match s with
  | c :: s' =>
      if (c =? 10)%N then match s' with d :: s'' => if (d =? 59)%N then option_map (pre [c; d]) (line_end s'') else None | [] => None end
      else if (c =? 13)%N then
        match s' with
        | d :: e :: s'' => if (d =? 10)%N && (e =? 59)%N then option_map (pre [c; d; e]) (line_end s'') else None
        | _ => None
        end
      else None
  | [] => None
  end.
Proof.
  cbn [tok_re rseq]. unfold re_match. rewrite rmatch_seq_alt, hd_app.
  unfold is at 1 3. rewrite rmatch_seq_assoc. unfold is at 2.
  fold (re_match (RSeq (RChr (N.eqb 10)) (RSeq (is 59) (RSeq (RStar (RChr not_eol)) re_eols))) s).
  fold (re_match (RSeq (RChr (N.eqb 13)) (RSeq (RChr (N.eqb 10)) (RSeq (is 59) (RSeq (RStar (RChr not_eol)) re_eols)))) s).
  destruct s as [|c s]; [reflexivity|]. rewrite !re_seq_chr, (N.eqb_sym 10 c), (N.eqb_sym 13 c).
  destruct (c =? 10)%N eqn:E1.
  - assert ((c =? 13)%N = false) as -> by lia. destruct s as [|d s]; [reflexivity|]. unfold is. rewrite !re_seq_chr, (N.eqb_sym 59 d), re_line.
    destruct (d =? 59)%N; [|reflexivity]. destruct (line_end s) as [[a b]|]; reflexivity.
  - destruct (c =? 13)%N; [|reflexivity]. destruct s as [|d s]; [reflexivity|]. rewrite re_seq_chr, (N.eqb_sym 10 d).
    destruct s as [|e s]; [now destruct (d =? 10)%N|]. unfold is. rewrite !re_seq_chr, (N.eqb_sym 59 e), re_line.
    destruct (d =? 10)%N; [|reflexivity]. destruct (e =? 59)%N; [|reflexivity].
    destruct (line_end s) as [[a b]|]; reflexivity.
Qed.

(** ** Ignored text *)
Lemma re_not_semi s : re_match (RNot (is 59)) s = if first_is 59 s then None else Some ([], s).
Proof.
  unfold re_match, is. cbn [rmatch]. destruct s as [|d s]; [reflexivity|]. cbn [first_is]. rewrite (N.eqb_sym 59 d).
  now destruct (d =? 59)%N.
Qed.
Lemma re_ign1 g s :
  re_match (tok_re g Ign1) s =
  match s with
  | c :: s' => if ((c =? 32) || (c =? 9))%N || (is_eol c && negb (first_is 59 s')) then Some ([c], s') else None
  | [] => None
  end.
Proof.
  cbn [tok_re]. rewrite re_alt. destruct s as [|c s]; [reflexivity|]. unfold one_of.
  rewrite re_seq_chr, re_chr, re_not_semi. cbn [existsb]. unfold is_eol.
  destruct (c =? 32)%N, (c =? 9)%N, (c =? 10)%N, (c =? 13)%N, (first_is 59 s); reflexivity.
Qed.
Lemma re_ign2_none g c s : (c =? 35)%N = false -> re_match (tok_re g Ign2) (c :: s) = None.
Proof. intros H. apply re_none; [reflexivity|]. cbn [tok_re first_ok nullable rseq is rdot one_of]. rewrite (N.eqb_sym 35 c), H. reflexivity. Qed.

(** ** Quoted values *)
Lemma not_in_false cs c : In c cs -> not_in cs c = false.
Proof. intros H. unfold not_in. apply negb_false_iff, existsb_exists. exists c. split; [exact H|apply N.eqb_refl]. Qed.
Lemma rplus_one q t : first_is q t = false -> re_match (rplus (is q)) (q :: t) = Some ([q], t).
Proof.
  intros H. unfold rplus, is. rewrite re_seq_chr, N.eqb_refl, re_star_chr. destruct t as [|d t]; [reflexivity|].
  cbn [first_is] in H. cbn [span]. rewrite (N.eqb_sym q d), H. reflexivity.
Qed.
Lemma re_quoted1_match q excl v t :
  In q excl -> Forall (fun c => ~ In c excl) v -> is_space q = false -> ends_token t ->
  re_match (re_quoted1 q excl) (q :: v ++ q :: t) = Some (q :: v ++ [q], t).
Proof.
  intros Hq Hv Hs Ht. unfold re_quoted1, rseq, is at 1. rewrite re_seq_chr, N.eqb_refl.
  erewrite re_seq; [reflexivity| |].
  - apply re_star_body.
    + intros v1 c v2 ->. apply Forall_app in Hv. destruct Hv as [_ Hv]. apply Forall_cons_iff in Hv. destruct Hv as [Hc _].
      assert ((q =? c)%N = false) as E by (apply N.eqb_neq; intros ->; tauto).
      rewrite re_alt. unfold is. rewrite re_seq_chr, E, re_chr.
      assert (not_in excl c = true) as ->; [|reflexivity].
      unfold not_in. apply negb_true_iff. apply not_true_iff_false. intros H. apply existsb_exists in H.
      destruct H as [x [Hx E']]. apply N.eqb_eq in E'. subst. tauto.
    + rewrite rmatch_alt. unfold is. rewrite rmatch_seq_chr, N.eqb_refl. cbn [rmatch].
      rewrite (not_in_false excl q Hq), app_nil_r.
      destruct t as [|d t]; [reflexivity|]. cbn in Ht. unfold ns. rewrite Ht. reflexivity.
  - apply rplus_one. destruct t as [|d t]; [reflexivity|]. cbn [first_is ends_token] in *. apply N.eqb_neq. intros ->. congruence.
Qed.
Lemma re_quoted2_match q excl v t :
  In q excl -> Forall (fun c => ~ In c excl) v -> first_is q t = false ->
  re_match (re_quoted2 q excl) (q :: v ++ q :: t) = Some (q :: v ++ [q], t).
Proof.
  intros Hq Hv Ht. unfold re_quoted2, rseq, is at 1. rewrite re_seq_chr, N.eqb_refl.
  erewrite re_seq; [reflexivity| |apply rplus_one; exact Ht].
  rewrite re_star_chr. f_equal. apply span_prefix; [|now apply not_in_false].
  apply (Forall_impl _ (P := fun c => ~ In c excl)); [|exact Hv].
  intros c Hc. unfold not_in. apply negb_true_iff, not_true_iff_false. intros H. apply existsb_exists in H.
  destruct H as [x [Hx E']]. apply N.eqb_eq in E'. subst. tauto.
Qed.
