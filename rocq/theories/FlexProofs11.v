(** The parsers on the compiled scanner end. *)
From Coq Require Import String Ascii List NArith PeanoNat Bool Lia.
From Verif Require Import PyBase PyFacts RegexModel ScanModel ScanProofs2 ReadModel ParseModel FlexModel FlexProofs10.
Import ListNotations.
Open Scope nat_scope.

Definition wfp (st : fstate) : Prop := forall t m, f_pend st = Some (t, m) -> m = [] -> t = Some End \/ t = None.
(** Ends, with no more than n characters left. *)
Definition ends {A} (n : nat) (o : outcome (A * fstate)) : Prop :=
  match o with Ret (_, st) => wfp st /\ f_size st <= n | Raise e => e <> OutOfFuel end.
Lemma ends_le {A} n n' (o : outcome (A * fstate)) : n <= n' -> ends n o -> ends n' o.
Proof. destruct o as [[x st]|e]; cbn; [|easy]. intros H [H1 H2]. split; [exact H1|lia]. Qed.
Lemma ends_bind {A B} n n' (o : outcome (A * fstate)) (k : A * fstate -> outcome (B * fstate)) :
  ends n o -> (forall x st, o = Ret (x, st) -> wfp st -> f_size st <= n -> ends n' (k (x, st))) -> ends n' (obind o k).
Proof. destruct o as [[x st]|e]; cbn; [|easy]. intros [H1 H2] H. now apply H. Qed.
Lemma token_ends st : wfp st -> exists t m st', f_token st = Ret (t, m, st') /\ wfp st' /\ f_size st' <= f_size st /\ f_pend st' = Some (t, m).
Proof.
  intros W. unfold f_token. destruct (f_pend st) as [[t m]|] eqn:P; [now exists t, m, st|].
  destruct (flex_total_go (length (f_inp st)) (f_start st) (f_inp st) (le_n _)) as (t & m & c & r & F & w & D). unfold flex_scan. rewrite F. cbn [obind].
  exists t, m, (FS r c (Some (t, m))). split; [reflexivity|]. split; [|split; [|reflexivity]].
  - intros t0 m0 E. injection E as <- <-. intros E0. destruct D as [[_ D]|D]; [left; now apply D|now right].
  - unfold f_size. rewrite P. cbn [f_inp f_pend]. destruct D as [[E _]| ->]; [rewrite E, !app_length; lia|].
    (* the token (error) is the last one *)
    assert (r = [] /\ length m <= length (f_inp st)) as [-> Lm]; [|cbn; lia]. revert F. generalize (length (f_inp st)) at 1. clear. intros fuel. generalize (f_start st) (f_inp st). induction fuel as [|fuel IH]; intros c0 s F; cbn [flex_go] in F; destruct s as [|k s]; try discriminate.
    destruct (best_rule (rules c0) (k :: s) None) as [[[[a n] m1] r1]|] eqn:B; [|discriminate]. apply best_from in B. destruct B as [B|(ru & _ & _ & B)]; [discriminate|]. destruct (rule_split _ _ _ _ _ B) as [E _].
    destruct a; try discriminate; [destruct (IH _ _ F) as [-> L]; split; [reflexivity|]; rewrite E, app_length; lia|]. injection F as <- _ <-. split; [reflexivity|]. rewrite E, app_length. lia.
Qed.
Lemma peek_ends st : wfp st -> exists t st', f_peek st = Ret (t, st') /\ wfp st' /\ f_size st' <= f_size st /\ exists m, f_pend st' = Some (t, m).
Proof. intros W. destruct (token_ends st W) as (t & m & st' & E & W' & L & P). exists t, st'. unfold f_peek. rewrite E. cbn [obind]. split; [reflexivity|]. split; [exact W'|]. split; [exact L|]. now exists m. Qed.
Lemma take_ends t st : wfp st -> t <> End -> 
  match f_take t st with Ret (_, st') => wfp st' /\ f_size st' < f_size st /\ f_pend st' = None | Raise e => e = SyntaxErr end.
Proof.
  intros W Nt. destruct (token_ends st W) as (t' & m & st' & E & W' & L & P). unfold f_take. rewrite E. cbn [obind]. destruct (is_tok t t') eqn:T; [|reflexivity].
  split; [intros ? ? K; discriminate K|]. split; [|reflexivity]. assert (1 <= length m) as Lm.
  { destruct m as [|c m]; [|cbn; lia]. exfalso. destruct (W' _ _ P eq_refl) as [-> | ->]; [|discriminate T]. cbn [is_tok] in T. apply tok_eqb_eq in T. now symmetry in T. }
  unfold f_size in *. rewrite P in L. cbn [f_inp f_pend]. lia.
Qed.
Lemma take_bind {B} t st n' (k : str * fstate -> outcome (B * fstate)) : wfp st -> t <> End ->
  (forall x st', wfp st' -> f_size st' < f_size st -> f_pend st' = None -> ends n' (k (x, st'))) -> ends n' (obind (f_take t st) k).
Proof. intros W N0 H. pose proof (take_ends t st W N0) as T. destruct (f_take t st) as [[x st']|e]; cbn [obind]; [apply H; tauto|]. subst e. discriminate. Qed.
Lemma syntax_ends {A} n : @ends A n (Raise SyntaxErr). Proof. discriminate. Qed.
Ltac peeked W := let t := fresh "t" in let st1 := fresh "st" in let E := fresh "E" in let W1 := fresh "W" in let L := fresh "L" in
  destruct (peek_ends _ W) as (t & st1 & E & W1 & L & _); rewrite E; cbn [obind].
Lemma sc_rest_ends fuel : forall acc st, wfp st -> f_size st <= fuel -> ends (f_size st) (f_sc_rest fuel acc st).
Proof.
  induction fuel as [|fuel IH]; intros acc st W L; cbn [f_sc_rest]; peeked W; destruct (is_tok ScLine t) eqn:T.
  - pose proof (take_ends ScLine st0 W0 ltac:(discriminate)) as K. exfalso. destruct (peek_ends st W) as (t' & st' & E' & W' & L' & (m & P)). rewrite E in E'. injection E' as <- <-.
    unfold f_take, f_token in K. rewrite P in K. cbn [obind] in K. rewrite T in K. destruct K as (_ & K & _). lia.
  - apply take_bind; [exact W0|discriminate|]. intros x st' W' L' _. cbn [ends fst snd]. split; [exact W'|lia].
  - apply take_bind; [exact W0|discriminate|]. intros x st' W' L' _. cbn [fst snd]. eapply ends_le; [|apply IH; [exact W'|lia]]. lia.
  - apply take_bind; [exact W0|discriminate|]. intros x st' W' L' _. cbn [ends fst snd]. split; [exact W'|lia].
Qed.
Lemma value_ends st : wfp st -> match f_value st with Ret (_, st') => wfp st' /\ f_size st' < f_size st | Raise e => e <> OutOfFuel end.
Proof.
  intros W. unfold f_value. peeked W. destruct (is_tok Value1 t).
  - pose proof (take_ends Value1 st0 W0 ltac:(discriminate)) as K. destruct (f_take Value1 st0) as [[x st']|e]; cbn [obind fst snd]; [split; [tauto|lia]|now subst e].
  - destruct (is_tok StartSc t); [|discriminate]. unfold f_sc_lines. pose proof (take_ends StartSc st0 W0 ltac:(discriminate)) as K. destruct (f_take StartSc st0) as [[x st']|e]; cbn [obind fst snd]; [|now subst e].
    destruct K as (K1 & K2 & K3). assert (f_size st' <= length (f_inp st')) as Ls by (unfold f_size; rewrite K3; lia). pose proof (sc_rest_ends (length (f_inp st')) x st' K1 Ls) as S1.
    destruct (f_sc_rest (length (f_inp st')) x st') as [[y st2]|e]; cbn [obind fst snd ends] in *; [|exact S1]. split; [tauto|lia].
Qed.
(** A token that is to be taken is not of length 0, so fuel is left. *)
Lemma peek_room st t st1 : wfp st -> f_peek st = Ret (t, st1) -> t <> Some End -> t <> None -> 1 <= f_size st1.
Proof.
  intros W E N1 N2. destruct (peek_ends st W) as (t' & st' & E' & W' & _ & (m & P)). rewrite E in E'. injection E' as <- <-. unfold f_size. rewrite P. destruct m as [|c m]; [|cbn; lia].
  exfalso. destruct (W' _ _ P eq_refl); contradiction.
Qed.
Lemma is_tok_some t x : is_tok t x = true -> x = Some t.
Proof. destruct x as [y|]; [|discriminate]. cbn. intros H. apply tok_eqb_eq in H. now subst. Qed.
Lemma f_expect_some l x : f_expect l x = true -> exists t, x = Some t /\ In t l.
Proof. destruct x as [y|]; [|discriminate]. cbn. intros H. exists y. split; [reflexivity|now apply tmem_In]. Qed.
Lemma fields_end fuel : forall acc st, wfp st -> f_size st <= fuel -> ends (f_size st) (f_loop_fields fuel acc st).
Proof.
  induction fuel as [|fuel IH]; intros acc st W L; cbn [f_loop_fields]; peeked W; destruct (is_tok DataName t) eqn:T.
  - exfalso. apply is_tok_some in T. subst t. pose proof (peek_room _ _ _ W E ltac:(discriminate) ltac:(discriminate)). lia.
  - destruct (f_expect _ t); [|discriminate]. split; [exact W0|lia].
  - apply take_bind; [exact W0|discriminate|]. intros x st' W' L' _. cbn [fst snd]. eapply ends_le; [|apply IH; [exact W'|lia]]. lia.
  - destruct (f_expect _ t); [|discriminate]. split; [exact W0|lia].
Qed.
Lemma values_end fuel : forall acc st, wfp st -> f_size st <= fuel -> ends (f_size st) (f_loop_values fuel acc st).
Proof.
  induction fuel as [|fuel IH]; intros acc st W L; cbn [f_loop_values]; peeked W; destruct (f_expect v_first t) eqn:T.
  - exfalso. apply f_expect_some in T. destruct T as (y & -> & T). assert (Some y <> Some End) as Ny by (intros K; injection K as ->; cbn in T; intuition discriminate). pose proof (peek_room _ _ _ W E Ny ltac:(discriminate)). lia.
  - destruct (f_expect (v_first ++ item_follow) t); [|discriminate]. split; [exact W0|lia].
  - pose proof (value_ends st0 W0) as V. destruct (f_value st0) as [[v st']|e]; cbn [obind fst snd]; [|exact V]. eapply ends_le; [|apply IH; [tauto|lia]]. lia.
  - destruct (f_expect (v_first ++ item_follow) t); [|discriminate]. split; [exact W0|lia].
Qed.
Lemma item_ends st : wfp st -> match f_data_item st with Ret (_, st') => wfp st' /\ f_size st' < f_size st | Raise e => e <> OutOfFuel end.
Proof.
  intros W. assert (ends (f_size st - 1) (f_data_item st) /\ 1 <= f_size st \/ exists e, f_data_item st = Raise e /\ e <> OutOfFuel) as [[K L]|(e & -> & K)]; [| |exact K].
  2:{ destruct (f_data_item st) as [[x st']|e]; cbn [ends] in K; [split; [tauto|lia]|exact K]. }
  unfold f_data_item. peeked W. destruct (is_tok LBlock t) eqn:T.
  - left. apply is_tok_some in T. subst t. pose proof (peek_room _ _ _ W E ltac:(discriminate) ltac:(discriminate)). split; [|lia].
    apply take_bind; [exact W0|discriminate|]. intros x st' W' L' _. cbn [fst snd]. eapply ends_bind; [apply fields_end; [exact W'|lia]|]. intros ns st2 _ W2 L2. cbn [fst snd].
    pose proof (value_ends st2 W2) as V. destruct (f_value st2) as [[v st3]|e]; cbn [obind fst snd]; [|exact V]. eapply ends_bind; [apply values_end; [tauto|lia]|]. intros vs st4 _ W4 L4. cbn [ends fst snd]. split; [exact W4|lia].
  - destruct (is_tok DataName t) eqn:T2; [|right; exists SyntaxErr; split; [reflexivity|discriminate]]. left. apply is_tok_some in T2. subst t. pose proof (peek_room _ _ _ W E ltac:(discriminate) ltac:(discriminate)). split; [|lia].
    apply take_bind; [exact W0|discriminate|]. intros x st' W' L' _. cbn [fst snd]. pose proof (value_ends st' W') as V. destruct (f_value st') as [[v st3]|e]; cbn [obind fst snd]; [|exact V]. split; [tauto|lia].
Qed.
Lemma more_ends fuel : forall acc st, wfp st -> f_size st <= fuel -> ends (f_size st) (f_data_more fuel acc st).
Proof.
  induction fuel as [|fuel IH]; intros acc st W L; cbn [f_data_more]; peeked W; destruct (f_expect [LBlock; DataName] t) eqn:T.
  - exfalso. apply f_expect_some in T. destruct T as (y & -> & T). assert (Some y <> Some End) as Ny by (intros K; injection K as ->; cbn in T; intuition discriminate). pose proof (peek_room _ _ _ W E Ny ltac:(discriminate)). lia.
  - destruct (f_expect item_follow t); [|discriminate]. split; [exact W0|lia].
  - pose proof (item_ends st0 W0) as V. destruct (f_data_item st0) as [[v st']|e]; cbn [obind fst snd]; [|exact V]. eapply ends_le; [|apply IH; [tauto|lia]]. lia.
  - destruct (f_expect item_follow t); [|discriminate]. split; [exact W0|lia].
Qed.
Lemma contents_end fuel : forall st, wfp st -> f_size st < fuel -> ends (f_size st) (f_contents fuel st).
Proof.
  induction fuel as [|fuel IH]; intros st W L; [lia|]. cbn [f_contents]. peeked W. destruct (f_expect [LBlock; DataName] t) eqn:T.
  - unfold f_data_seq. pose proof (item_ends st0 W0) as V. destruct (f_data_item st0) as [[v st']|e]; cbn [obind fst snd]; [|exact V].
    assert (ends (f_size st') (f_data_more (f_size st') [v] st')) as M by (apply more_ends; [tauto|lia]). eapply ends_bind; [exact M|]. intros its st2 _ W2 L2. cbn [fst snd].
    eapply ends_bind; [apply IH; [exact W2|lia]|]. intros zs st3 _ W3 L3. cbn [ends fst snd]. split; [exact W3|lia].
  - destruct (is_tok SaveHeading t).
    + apply take_bind; [exact W0|discriminate|]. intros x st' W' L' _. cbn [fst snd]. eapply ends_bind; [apply IH; [exact W'|lia]|]. intros ys st2 _ W2 L2. cbn [fst snd].
      apply take_bind; [exact W2|discriminate|]. intros y st3 W3 L3 _. cbn [fst snd]. eapply ends_bind; [apply IH; [exact W3|lia]|]. intros zs st4 _ W4 L4. cbn [ends fst snd]. split; [exact W4|lia].
    + destruct (f_expect item_follow t); [|discriminate]. split; [exact W0|lia].
Qed.
Lemma file_ends fuel : forall acc st, wfp st -> f_size st <= fuel -> f_more fuel acc st <> Raise OutOfFuel.
Proof.
  induction fuel as [|fuel IH]; intros acc st W L; cbn [f_more]; peeked W; destruct (is_tok DataHeading t) eqn:T.
  - exfalso. apply is_tok_some in T. subst t. pose proof (peek_room _ _ _ W E ltac:(discriminate) ltac:(discriminate)). lia.
  - destruct (token_ends st0 W0) as (t' & m & st' & E' & _). unfold f_take. rewrite E'. cbn [obind]. destruct (is_tok End t'); discriminate.
  - unfold f_dblock. pose proof (take_ends DataHeading st0 W0 ltac:(discriminate)) as K. destruct (f_take DataHeading st0) as [[x st']|e]; cbn [obind fst snd]; [|subst e; discriminate]. destruct K as (K1 & K2 & _).
    pose proof (contents_end (S (f_size st')) st' K1 (le_n _)) as C. destruct (f_contents (S (f_size st')) st') as [[cs st2]|e]; cbn [obind fst snd ends] in *; [|congruence]. apply IH; [tauto|lia].
  - destruct (token_ends st0 W0) as (t' & m & st' & E' & _). unfold f_take. rewrite E'. cbn [obind]. destruct (is_tok End t'); discriminate.
Qed.
Theorem flex_file_ends s : flex_file s <> Raise OutOfFuel.
Proof. unfold flex_file. apply file_ends; [intros ? ? K; discriminate K|]. unfold f_size. cbn. lia. Qed.
