(** The python parsers end, with data blocks or with a syntax error. *)
From Coq Require Import String Ascii List NArith PeanoNat Bool Lia.
From Verif Require Import PyBase PyFacts RegexModel ScanModel ScanSpec ScanFacts ScanProofs2 ReadModel ParseModel.
Import ListNotations.
Open Scope nat_scope.

Lemma token_nonempty g t s m r : t <> End -> matches g t s m r -> m <> [].
Proof.
  intros Ht M ->. unfold matches, re_match in M.
  assert (In ([], r) (rmatch (tok_re g t) s)) as H by (destruct (rmatch (tok_re g t) s); [discriminate|injection M as ->; now left]).
  apply rmatch_nil_nullable in H. destruct t; try (exfalso; now apply Ht); destruct g; discriminate H.
Qed.

Section Ends.
Context (g : grammar).

(** The next look may ask for the tokens [R]. *)
Definition ok (R : list tok) (st : pstate) : Prop :=
  match p_pend st with
  | None => True
  | Some (t, m, r0) => r0 <> [] /\ (forall r, In r R -> In r r0) /\ (m = [] -> t = End) /\ In t r0 /\ In t (patterns g)
  end.
Lemma ok_sub R R' st : (forall r, In r R' -> In r R) -> ok R st -> ok R' st.
Proof. unfold ok. destruct (p_pend st) as [[[t m] r0]|]; [|easy]. intros H (H1 & H2 & H3 & H4). split; [exact H1|]. split; [auto|]. now split. Qed.
Definition ends {A} (R : list tok) (n : nat) (o : outcome (A * pstate)) : Prop :=
  match o with Ret (_, st) => ok R st /\ size st <= n | Raise e => e = SyntaxErr end.
Lemma ends_le {A} R n n' (o : outcome (A * pstate)) : n <= n' -> ends R n o -> ends R n' o.
Proof. destruct o as [[x st]|e]; cbn [ends]; [|easy]. intros H [H1 H2]. split; [exact H1|lia]. Qed.
Lemma ends_bind {A B} R R' n n' (o : outcome (A * pstate)) (k : A * pstate -> outcome (B * pstate)) :
  ends R n o -> (forall x st, ok R st -> size st <= n -> ends R' n' (k (x, st))) -> ends R' n' (obind o k).
Proof. destruct o as [[x st]|e]; cbn [ends obind]; [|easy]. intros [H1 H2] H. now apply H. Qed.

Lemma token_ends R st : R <> [] -> ok R st ->
  match token g R st with
  | Ret (t, m, st') => size st' <= size st /\ (m = [] -> t = End) /\ ok (t :: R) st' /\ In t (patterns g) /\ exists r0, p_pend st' = Some (t, m, r0)
  | Raise e => e = SyntaxErr
  end.
Proof.
  intros NR W. unfold token. unfold ok in W. destruct (p_pend st) as [[[t m] r0]|] eqn:P.
  - destruct W as (W1 & W2 & W3 & W4 & W5). assert (forallb (fun r => tmem r r0) R = true) as F. { apply forallb_forall. intros x Hx. apply tmem_In. now apply W2. }
    destruct R as [|a R]; [now elim NR|]. destruct r0 as [|b r0]; [now elim W1|]. rewrite F. cbn [negb]. split; [lia|]. split; [exact W3|]. split; [unfold ok; rewrite P; split; [discriminate|]; split; [intros x [<-|Hx]; auto|auto]|]. split; [exact W5|]. now exists (b :: r0).
  - pose proof (scan_total g R (p_inp st)) as S1. destruct (scan g R (p_inp st)) as [[[t m] r]|e]; cbn [obind]; [|tauto]. destruct S1 as (w & E & _ & W1 & Ig).
    assert (In t R /\ In t (patterns g)) as [HtR HtP]. { destruct W1 as (b & a & EA & _). assert (In t (accepted g R)) as Ha by (rewrite EA; apply in_or_app; right; now left). apply accepted_In in Ha; [|exact NR]. destruct Ha as [Hp [Ha|Ha]]; [now split|congruence]. }
    assert (m = [] -> t = End) as Hm. { intros Em. destruct (tok_eq_dec t End) as [|N]; [assumption|]. exfalso. exact (token_nonempty _ _ _ _ _ N (wins_matches _ _ _ _ _ _ W1) Em). }
    split; [|split; [exact Hm|]].
    + unfold size. rewrite P. cbn [p_inp p_pend]. rewrite E, !app_length. lia.
    + split; [unfold ok; cbn [p_pend]; split; [exact NR|]; split; [intros x [<-|Hx]; assumption|auto]|]. split; [exact HtP|]. now exists R.
Qed.
Lemma peek_ends R st : R <> [] -> ok R st ->
  match peek g R st with
  | Ret (t, st') => size st' <= size st /\ ok (t :: R) st' /\ (t <> End -> 1 <= size st') /\ In t (patterns g)
  | Raise e => e = SyntaxErr
  end.
Proof.
  intros NR W. pose proof (token_ends R st NR W) as T. unfold peek. destruct (token g R st) as [[[t m] st']|e]; cbn [obind]; [|exact T]. destruct T as (T1 & T2 & T3 & T5 & (r0 & T4)).
  split; [exact T1|]. split; [exact T3|]. split; [|exact T5]. intros Nt. unfold size. rewrite T4. destruct m as [|c m]; [now elim Nt; apply T2|cbn; lia].
Qed.
Lemma take_ends t st : ok [t] st ->
  match take g t st with
  | Ret (_, st') => p_pend st' = None /\ size st' <= size st /\ (t <> End -> size st' < size st)
  | Raise e => e = SyntaxErr
  end.
Proof.
  intros W. pose proof (token_ends [t] st ltac:(discriminate) W) as T. unfold take. destruct (token g [t] st) as [[[t' m] st']|e]; cbn [obind]; [|exact T]. destruct T as (T1 & T2 & _ & _ & (r0 & T4)).
  destruct (tok_eqb t' t) eqn:E; [|reflexivity]. apply tok_eqb_eq in E. subst t'. split; [reflexivity|]. unfold size in *. rewrite T4 in T1. cbn [p_inp p_pend]. split; [lia|].
  intros Nt. destruct m as [|c m]; [now elim Nt; apply T2|cbn in T1; lia].
Qed.
Lemma ok_none R st : p_pend st = None -> ok R st. Proof. unfold ok. now intros ->. Qed.
Lemma peek_bind {B} R R' n' st (k : tok * pstate -> outcome (B * pstate)) : R <> [] -> ok R st ->
  (forall t st1, ok (t :: R) st1 -> size st1 <= size st -> (t <> End -> 1 <= size st1) -> In t (patterns g) -> ends R' n' (k (t, st1))) -> ends R' n' (obind (peek g R st) k).
Proof. intros NR W H. pose proof (peek_ends R st NR W) as T. destruct (peek g R st) as [[t st1]|e]; cbn [obind ends]; [|exact T]. apply H; tauto. Qed.
Lemma take_bind {B} t R' n' st (k : str * pstate -> outcome (B * pstate)) : t <> End -> ok [t] st ->
  (forall x st1, p_pend st1 = None -> size st1 < size st -> ends R' n' (k (x, st1))) -> ends R' n' (obind (take g t st) k).
Proof. intros Nt W H. pose proof (take_ends t st W) as T. destruct (take g t st) as [[x st1]|e]; cbn [obind ends]; [|exact T]. destruct T as (T1 & _ & T3). apply H; [exact T1|now apply T3]. Qed.
Lemma ret_ends {A} R n (x : A) st : ok R st -> size st <= n -> ends R n (Ret (x, st)).
Proof. cbn [ends]. auto. Qed.

Ltac sub := first [apply ok_none; assumption | eapply ok_sub; [|eassumption]; let r := fresh in let H := fresh in intros r H; cbn [In app item_follow] in H |- *; tauto].
(** Nothing is pending afterwards, and something has been read. *)
Definition eats {A} (st : pstate) (o : outcome (A * pstate)) : Prop :=
  match o with Ret (_, st') => p_pend st' = None /\ size st' < size st | Raise e => e = SyntaxErr end.
Lemma eats_ends {A} R n st (o : outcome (A * pstate)) : size st <= S n -> eats st o -> ends R n o.
Proof. destruct o as [[x st']|e]; cbn [eats ends]; [|easy]. intros L [H1 H2]. split; [now apply ok_none|lia]. Qed.
Lemma eats_bind {A B} R' n' st (o : outcome (A * pstate)) (k : A * pstate -> outcome (B * pstate)) :
  eats st o -> (forall x st', p_pend st' = None -> size st' < size st -> ends R' n' (k (x, st'))) -> ends R' n' (obind o k).
Proof. destruct o as [[x st']|e]; cbn [eats obind ends]; [|easy]. intros [H1 H2] H. now apply H. Qed.
Lemma eats_eats {A B} st (o : outcome (A * pstate)) (k : A * pstate -> outcome (B * pstate)) :
  eats st o -> (forall x st', p_pend st' = None -> size st' < size st -> eats st (k (x, st'))) -> eats st (obind o k).
Proof. destruct o as [[x st']|e]; cbn [eats obind]; [|easy]. intros [H1 H2] H. now apply H. Qed.
Lemma eats_mono {A} st st' (o : outcome (A * pstate)) : size st' <= size st -> eats st' o -> eats st o.
Proof. destruct o as [[x st2]|e]; cbn [eats]; [|easy]. intros L [H1 H2]. split; [exact H1|lia]. Qed.
Lemma take_eats t st : t <> End -> ok [t] st -> eats st (take g t st).
Proof. intros Nt W. pose proof (take_ends t st W) as T. destruct (take g t st) as [[x st1]|e]; cbn [eats]; [|exact T]. destruct T as (T1 & _ & T3). split; [exact T1|now apply T3]. Qed.
Lemma peek_eats {B} R st (k : tok * pstate -> outcome (B * pstate)) : R <> [] -> ok R st ->
  (forall t st1, ok (t :: R) st1 -> size st1 <= size st -> (t <> End -> 1 <= size st1) -> In t (patterns g) -> eats st (k (t, st1))) -> eats st (obind (peek g R st) k).
Proof. intros NR W H. pose proof (peek_ends R st NR W) as T. destruct (peek g R st) as [[t st1]|e]; cbn [obind eats]; [|exact T]. apply H; tauto. Qed.
Lemma then_eats {A B} st st1 (o : outcome (A * pstate)) (k : A * pstate -> outcome (B * pstate)) : size st1 <= size st ->
  eats st1 o -> (forall x st', p_pend st' = None -> size st' < size st1 -> eats st (k (x, st'))) -> eats st (obind o k).
Proof. destruct o as [[x st']|e]; cbn [eats obind]; [|easy]. intros _ [H1 H2] H. now apply H. Qed.
Lemma ret_eats {A} st (x : A) st' : p_pend st' = None -> size st' < size st -> eats st (Ret (x, st')).
Proof. cbn [eats]. auto. Qed.

Lemma sc_rest_eats fuel : forall acc st, ok [ScLine; EndSc] st -> size st <= fuel -> eats st (sc_rest fuel g acc st).
Proof.
  induction fuel as [|fuel IH]; intros acc st W L; cbn [sc_rest]; (apply peek_eats; [discriminate|exact W|]); intros t st1 W1 L1 R1 _; destruct (tok_eqb t ScLine) eqn:T.
  - apply tok_eqb_eq in T. subst t. specialize (R1 ltac:(discriminate)). lia.
  - eapply (then_eats st st1); [exact L1|apply take_eats; [discriminate|sub]|]. intros x st2 P2 L2. apply ret_eats; [exact P2|cbn [snd]; lia].
  - eapply (then_eats st st1); [exact L1|apply take_eats; [discriminate|sub]|]. intros x st2 P2 L2. cbn [fst snd]. eapply eats_mono; [|apply IH; [sub|lia]]. lia.
  - eapply (then_eats st st1); [exact L1|apply take_eats; [discriminate|sub]|]. intros x st2 P2 L2. apply ret_eats; [exact P2|cbn [snd]; lia].
Qed.
Lemma sc_lines_eats st : ok [StartSc] st -> eats st (sc_lines g st).
Proof.
  intros W. unfold sc_lines. eapply then_eats; [apply le_n|apply take_eats; [discriminate|exact W]|]. intros x st1 P1 L1. cbn [fst snd].
  eapply eats_mono; [|apply sc_rest_eats; [sub|]]; [lia|]. unfold size. rewrite P1. lia.
Qed.
Lemma delimited_eats st : ok [TripleQ; SingleQ] st -> eats st (delimited g st).
Proof.
  intros W. unfold delimited. apply peek_eats; [discriminate|exact W|]. intros t st1 W1 L1 _ Pt. destruct (tok_eqb t TripleQ); [|destruct (tok_eqb t SingleQ); [|reflexivity]].
  - eapply (then_eats st st1); [exact L1|apply take_eats; [discriminate|sub]|]. intros x st2 P2 L2. apply ret_eats; [exact P2|cbn [snd]; lia].
  - eapply (then_eats st st1); [exact L1|apply take_eats; [discriminate|sub]|]. intros x st2 P2 L2. apply ret_eats; [exact P2|cbn [snd]; lia].
Qed.
Definition list_follow : list tok := match g with GS2 => Comma :: CSquare :: value_first g | _ => CSquare :: value_first g end.
Definition table_follow : list tok := match g with GS2 => [Comma; CCurl; TripleQ; SingleQ] | _ => [CCurl; TripleQ; SingleQ] end.
Lemma first_in t : In t (value_first g) -> t <> End.
Proof. intros H ->. destruct g; cbn in H; decompose [or] H; try discriminate; contradiction. Qed.
Lemma ok_one R t st : In t R -> ok R st -> ok [t] st.
Proof. intros H. apply ok_sub. intros r [<-|[]]. exact H. Qed.
Lemma first_list t : In t (value_first g) -> In t list_follow.
Proof. unfold list_follow. destruct g; cbn; tauto. Qed.
Lemma expect_In l t : expect l t = true -> In t l. Proof. apply tmem_In. Qed.
Lemma value_eats fuel :
  (forall st, ok (value_first g) st -> 2 * size st < fuel -> eats st (value_go fuel g st))
  /\ (forall b acc st, ok list_follow st -> 2 * size st + 1 < fuel -> eats st (list_go fuel g b acc st))
  /\ (forall b acc st, ok table_follow st -> 2 * size st + 1 < fuel -> eats st (table_go fuel g b acc st)).
Proof.
  induction fuel as [|f (IHv & IHl & IHt)]; [repeat split; intros; lia|]. split; [|split].
  - intros st W L. cbn [value_go]. apply peek_eats; [destruct g; discriminate|exact W|]. intros t st1 W1 L1 _ Pt.
    destruct t; try reflexivity.
    + eapply (then_eats st st1); [exact L1|apply sc_lines_eats; sub|]. intros x st2 P2 L2. apply ret_eats; [exact P2|cbn [snd]; lia].
    + eapply (then_eats st st1); [exact L1|apply take_eats; [discriminate|sub]|]. intros x st2 P2 L2. cbn [fst snd].
      eapply (then_eats st st2); [lia|apply IHt; [sub|lia]|]. intros y st3 P3 L3. apply ret_eats; [exact P3|cbn [snd]; lia].
    + eapply (then_eats st st1); [exact L1|apply take_eats; [discriminate|sub]|]. intros x st2 P2 L2. cbn [fst snd].
      eapply (then_eats st st2); [lia|apply IHl; [sub|lia]|]. intros y st3 P3 L3. apply ret_eats; [exact P3|cbn [snd]; lia].
    + eapply (then_eats st st1); [exact L1|apply delimited_eats|intros x st2 P2 L2; apply ret_eats; [exact P2|cbn [snd]; lia]].
      eapply ok_sub; [|exact W1]. intros r H. right. destruct g; cbn in Pt, H |- *; decompose [or] Pt; try discriminate; try contradiction; tauto.
    + eapply (then_eats st st1); [exact L1|apply delimited_eats|intros x st2 P2 L2; apply ret_eats; [exact P2|cbn [snd]; lia]].
      eapply ok_sub; [|exact W1]. intros r H. right. destruct g; cbn in Pt, H |- *; decompose [or] Pt; try discriminate; try contradiction; tauto.
    + eapply (then_eats st st1); [exact L1|apply take_eats; [discriminate|sub]|]. intros x st2 P2 L2. apply ret_eats; [exact P2|cbn [snd]; lia].
  - intros b acc st W L. cbn [list_go]. fold list_follow. apply peek_eats; [unfold list_follow; destruct g; discriminate|exact W|]. intros t st1 W1 L1 _ Pt.
    destruct (expect list_follow t) eqn:X; cbn [negb]; [|reflexivity]. destruct (b && tok_eqb t Comma) eqn:C.
    + apply andb_true_iff in C. destruct C as [_ C]. apply tok_eqb_eq in C. subst t.
      eapply (then_eats st st1); [exact L1|apply take_eats; [discriminate|sub]|]. intros x st2 P2 L2. cbn [fst snd].
      eapply (then_eats st st2); [lia|apply IHv; [sub|lia]|]. intros v st3 P3 L3. cbn [fst snd]. eapply eats_mono; [|apply IHl; [sub|lia]]. lia.
    + destruct (expect (value_first g) t) eqn:V.
      * eapply (then_eats st st1); [exact L1|apply IHv; [|lia]|]. { eapply ok_sub; [|exact W1]. intros r H. right. now apply first_list. }
        intros v st3 P3 L3. cbn [fst snd]. eapply eats_mono; [|apply IHl; [sub|lia]]. lia.
      * eapply (then_eats st st1); [exact L1|apply take_eats; [discriminate|]|]. { eapply ok_sub; [|exact W1]. intros r [<-|[]]. right. unfold list_follow. destruct g; cbn; tauto. }
        intros x st2 P2 L2. apply ret_eats; [exact P2|cbn [snd]; lia].
  - intros b acc st W L. cbn [table_go]. fold table_follow. apply peek_eats; [unfold table_follow; destruct g; discriminate|exact W|]. intros t st1 W1 L1 _ Pt.
    assert (forall st2, size st2 <= size st1 -> ok [TripleQ; SingleQ] st2 -> forall acc',
      eats st (obind (delimited g st2) (fun k => obind (take g Colon (snd k)) (fun c => obind (value_go f g (snd c)) (fun z => table_go f g true ((fst k, fst z) :: acc') (snd z)))))) as Pair.
    { intros st2 L2 W2 acc'. eapply (then_eats st st2); [lia|apply delimited_eats, W2|]. intros k st3 P3 L3. cbn [fst snd].
      eapply (then_eats st st3); [lia|apply take_eats; [discriminate|sub]|]. intros c st4 P4 L4. cbn [fst snd].
      eapply (then_eats st st4); [lia|apply IHv; [sub|lia]|]. intros z st5 P5 L5. cbn [fst snd]. eapply eats_mono; [|apply IHt; [sub|lia]]. lia. }
    destruct (expect table_follow t) eqn:X; cbn [negb]; [|reflexivity]. destruct (b && tok_eqb t Comma) eqn:C.
    + apply andb_true_iff in C. destruct C as [_ C]. apply tok_eqb_eq in C. subst t.
      eapply (then_eats st st1); [exact L1|apply take_eats; [discriminate|sub]|]. intros x st2 P2 L2. cbn [fst snd]. apply Pair; [lia|sub].
    + destruct (expect [TripleQ; SingleQ] t) eqn:V.
      * apply Pair; [lia|]. eapply ok_sub; [|exact W1]. intros r H. right. unfold table_follow. destruct g; cbn in H |- *; tauto.
      * eapply (then_eats st st1); [exact L1|apply take_eats; [discriminate|]|]. { eapply ok_sub; [|exact W1]. intros r [<-|[]]. right. unfold table_follow. destruct g; cbn; tauto. }
        intros x st2 P2 L2. apply ret_eats; [exact P2|cbn [snd]; lia].
Qed.
Lemma data_value_eats st : ok (value_first g) st -> eats st (data_value g st).
Proof. intros W. unfold data_value. apply (proj1 (value_eats _)); [exact W|lia]. Qed.

Lemma fields_end fuel : forall acc st, ok (DataName :: value_first g) st -> size st <= fuel -> ends (DataName :: value_first g) (size st) (loop_fields fuel g acc st).
Proof.
  induction fuel as [|fuel IH]; intros acc st W L; cbn [loop_fields]; (apply peek_bind; [discriminate|exact W|]); intros t st1 W1 L1 R1 _; destruct (tok_eqb t DataName) eqn:T.
  - apply tok_eqb_eq in T. subst t. specialize (R1 ltac:(discriminate)). lia.
  - destruct (expect (DataName :: value_first g) t); [|reflexivity]. apply ret_ends; [sub|exact L1].
  - apply take_bind; [discriminate|sub|]. intros x st2 P2 L2. cbn [fst snd]. eapply ends_le; [|apply IH; [sub|lia]]. lia.
  - destruct (expect (DataName :: value_first g) t); [|reflexivity]. apply ret_ends; [sub|exact L1].
Qed.
Lemma values_end fuel : forall acc st, ok (value_first g ++ item_follow) st -> size st <= fuel -> ends item_follow (size st) (loop_values fuel g acc st).
Proof.
  assert (forall R t st, ok (t :: value_first g ++ R) st -> ok (value_first g) st) as Sv. { intros R t st. apply ok_sub. intros r H. right. apply in_or_app. now left. }
  assert (forall t st, ok (t :: value_first g ++ item_follow) st -> ok item_follow st) as Si. { intros t st. apply ok_sub. intros r H. right. apply in_or_app. now right. }
  induction fuel as [|fuel IH]; intros acc st W L; cbn [loop_values]; (apply peek_bind; [destruct g; discriminate|exact W|]); intros t st1 W1 L1 R1 _; destruct (expect (value_first g) t) eqn:T.
  - apply expect_In, first_in in T. specialize (R1 T). lia.
  - destruct (expect (value_first g ++ item_follow) t); [|reflexivity]. apply ret_ends; [exact (Si _ _ W1)|exact L1].
  - eapply eats_bind; [apply data_value_eats, (Sv _ _ _ W1)|]. intros x st2 P2 L2. cbn [fst snd]. eapply ends_le; [|apply IH; [sub|lia]]. lia.
  - destruct (expect (value_first g ++ item_follow) t); [|reflexivity]. apply ret_ends; [exact (Si _ _ W1)|exact L1].
Qed.
Definition shrinks {A} (R : list tok) (st : pstate) (o : outcome (A * pstate)) : Prop :=
  match o with Ret (_, st') => ok R st' /\ size st' < size st | Raise e => e = SyntaxErr end.
Lemma item_ends st : ok [LBlock; DataName] st -> shrinks item_follow st (data_item g st).
Proof.
  intros W. pose proof (peek_ends [LBlock; DataName] st ltac:(discriminate) W) as T. unfold data_item. destruct (peek g [LBlock; DataName] st) as [[t st1]|e]; cbn [obind]; [|exact T]. destruct T as (L1 & W1 & _).
  assert (forall t0, t0 = LBlock \/ t0 = DataName -> eats st1 (take g t0 st1)) as Tk. { intros t0 H. apply take_eats; [destruct H; subst t0; discriminate|]. destruct H; subst t0; sub. }
  destruct (tok_eqb t LBlock).
  - pose proof (Tk LBlock (or_introl eq_refl)) as K. destruct (take g LBlock st1) as [[a st2]|e]; cbn [obind fst snd]; [|exact K]. destruct K as [P2 L2].
    pose proof (fields_end (size st2) [] st2 ltac:(sub) (le_n _)) as F. destruct (loop_fields (size st2) g [] st2) as [[n st3]|e]; cbn [obind fst snd]; [|exact F]. destruct F as [W3 L3].
    assert (ok (value_first g) st3) as W3'. { eapply ok_sub; [|exact W3]. intros r H. now right. }
    pose proof (data_value_eats st3 W3') as V. destruct (data_value g st3) as [[v st4]|e]; cbn [obind fst snd]; [|exact V]. destruct V as [P4 L4].
    pose proof (values_end (size st4) [v] st4 ltac:(sub) (le_n _)) as Vs. destruct (loop_values (size st4) g [v] st4) as [[vs st5]|e]; cbn [obind fst snd shrinks]; [|exact Vs]. destruct Vs as [W5 L5]. split; [exact W5|lia].
  - destruct (tok_eqb t DataName); [|reflexivity]. pose proof (Tk DataName (or_intror eq_refl)) as K. destruct (take g DataName st1) as [[a st2]|e]; cbn [obind fst snd]; [|exact K]. destruct K as [P2 L2].
    pose proof (data_value_eats st2 ltac:(sub)) as V. destruct (data_value g st2) as [[v st4]|e]; cbn [obind fst snd shrinks]; [|exact V]. destruct V as [P4 L4]. split; [sub|lia].
Qed.
Lemma shrinks_bind {A B} R R' n' st (o : outcome (A * pstate)) (k : A * pstate -> outcome (B * pstate)) :
  shrinks R st o -> (forall x st', ok R st' -> size st' < size st -> ends R' n' (k (x, st'))) -> ends R' n' (obind o k).
Proof. destruct o as [[x st']|e]; cbn [shrinks obind ends]; [|easy]. intros [H1 H2] H. now apply H. Qed.
Lemma more_ends fuel : forall acc st, ok item_follow st -> size st <= fuel -> ends item_follow (size st) (data_more fuel g acc st).
Proof.
  induction fuel as [|fuel IH]; intros acc st W L; cbn [data_more]; (apply peek_bind; [discriminate|exact W|]); intros t st1 W1 L1 R1 _; destruct (expect [LBlock; DataName] t) eqn:T.
  - apply expect_In in T. assert (t <> End) as Nt by (intros ->; cbn in T; intuition discriminate). specialize (R1 Nt). lia.
  - destruct (expect item_follow t); [|reflexivity]. apply ret_ends; [sub|exact L1].
  - eapply shrinks_bind; [apply item_ends; sub|]. intros x st2 P2 L2. cbn [fst snd]. eapply ends_le; [|apply IH; [exact P2|lia]]. lia.
  - destruct (expect item_follow t); [|reflexivity]. apply ret_ends; [sub|exact L1].
Qed.
Lemma contents_end fuel : forall b st, ok item_follow st -> size st < fuel -> ends item_follow (size st) (contents fuel g b st).
Proof.
  induction fuel as [|fuel IH]; intros b st W L; [lia|]. cbn [contents]. apply peek_bind; [discriminate|exact W|]. intros t st1 W1 L1 _ _. destruct (expect [LBlock; DataName] t).
  - unfold data_seq. pose proof (item_ends st1 ltac:(sub)) as V. destruct (data_item g st1) as [[v st2]|e]; cbn [obind fst snd]; [|exact V]. destruct V as [W2 L2].
    eapply ends_bind; [apply (more_ends (size st2) [v] st2 W2 (le_n _))|]. intros its st3 W3 L3. cbn [fst snd]. eapply ends_bind; [apply IH; [exact W3|lia]|]. intros z st4 W4 L4. apply ret_ends; [exact W4|cbn [snd]; lia].
  - destruct (tok_eqb t SaveHeading && negb (b && match g with G20 => true | _ => false end)).
    + apply take_bind; [discriminate|sub|]. intros x st2 P2 L2. cbn [fst snd]. eapply ends_bind; [apply IH; [sub|lia]|]. intros ys st3 W3 L3. cbn [fst snd].
      apply take_bind; [discriminate|sub|]. intros y st4 P4 L4. cbn [fst snd]. eapply ends_bind; [apply IH; [sub|lia]|]. intros z st5 W5 L5. apply ret_ends; [exact W5|cbn [snd]; lia].
    + destruct (expect item_follow t); [|reflexivity]. apply ret_ends; [sub|exact L1].
Qed.
Lemma file_ends fuel : forall acc st, ok [DataHeading; End] st -> size st <= fuel -> match parse_more fuel g acc st with Ret _ => True | Raise e => e = SyntaxErr end.
Proof.
  induction fuel as [|fuel IH]; intros acc st W L; cbn [parse_more]; pose proof (peek_ends [DataHeading; End] st ltac:(discriminate) W) as T;
    (destruct (peek g [DataHeading; End] st) as [[t st1]|e]; cbn [obind]; [|exact T]); destruct T as (L1 & W1 & R1 & _); destruct (tok_eqb t DataHeading) eqn:E.
  - apply tok_eqb_eq in E. subst t. specialize (R1 ltac:(discriminate)). lia.
  - pose proof (take_ends End st1 ltac:(sub)) as K. destruct (take g End st1) as [[x st2]|e]; cbn [obind]; [exact Logic.I|exact K].
  - unfold parse_dblock. pose proof (take_eats DataHeading st1 ltac:(discriminate) ltac:(sub)) as K. destruct (take g DataHeading st1) as [[h st2]|e]; cbn [obind fst snd]; [|exact K]. destruct K as [P2 L2].
    pose proof (contents_end (S (size st2)) false st2 ltac:(sub) (le_n _)) as C. destruct (contents (S (size st2)) g false st2) as [[cs st3]|e]; cbn [obind fst snd]; [|exact C]. destruct C as [W3 L3]. apply IH; [sub|lia].
  - pose proof (take_ends End st1 ltac:(sub)) as K. destruct (take g End st1) as [[x st2]|e]; cbn [obind]; [exact Logic.I|exact K].
Qed.
Theorem parse_file_ends s : (exists ds, parse_file g s = Ret ds) \/ parse_file g s = Raise SyntaxErr.
Proof.
  unfold parse_file. pose proof (file_ends (length s) [] (PS s None) Logic.I) as F. assert (size (PS s None) <= length s) as L by (unfold size; cbn [p_inp p_pend]; lia). specialize (F L).
  destruct (parse_more (length s) g [] (PS s None)) as [ds|e]; [left; now exists ds|right; now subst e].
Qed.
End Ends.
