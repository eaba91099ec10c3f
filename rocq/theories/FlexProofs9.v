(** The two parsers step by step. *)
From Coq Require Import String Ascii List NArith PeanoNat Bool Lia.
From Verif Require Import PyBase PyFacts RegexModel RegexFacts RegexSpec RegexProofs ScanModel ScanFacts ScanSpec ScanProofs ScanProofs2 ScanProofs3 ReadModel ParseModel FlexModel FlexSpec FlexProofs FlexProofs2 FlexProofs3 FlexProofs4 FlexProofs5 FlexProofs6 FlexProofs7 FlexProofs8.
Import ListNotations.
Open Scope nat_scope.

Section Sim.
  Variables (g : grammar) (s0 : str).
  Hypothesis G : g = G10 \/ g = G11.
  Hypothesis P0 : plain_text s0.
  Hypothesis H0 : no_hash_text s0.
  Hypothesis A0 : loops_apart s0.

  (** The state of the second parser at a state of the first. *)
  Definition fl (c : start) (st : pstate) : fstate :=
    match p_pend st with
    | Some (t, m, _) => FS (p_inp st) (after t c) (Some (Some t, m))
    | None => FS (p_inp st) c None
    end.
  Definition inv (st : pstate) : Prop :=
    match p_pend st with
    | None => at_ s0 Initial (p_inp st)
    | Some (t, m, _) => at_ s0 (after t Initial) (p_inp st) /\ In t outside /\ matches g t (m ++ p_inp st) m (p_inp st) /\ exists a, s0 = a ++ m ++ p_inp st
    end.
  Definition good (st : pstate) : Prop := match p_pend st with None => True | Some (t, m, _) => tok_fit g t m (p_inp st) end.
  Definition okR (R : list tok) : Prop := R <> [] /\ (forall x, In x R -> In x outside) /\ (In SaveEnd R -> In SaveHeading R).
  Lemma fl_size c st : f_size (fl c st) = size st.
  Proof. unfold f_size, size, fl. destruct (p_pend st) as [[[t m] R]|]; reflexivity. Qed.
  Lemma fl_inp c st : f_inp (fl c st) = p_inp st.
  Proof. unfold fl. destruct (p_pend st) as [[[t m] R]|]; reflexivity. Qed.

  Lemma peek_sim R st t st1 : okR R -> peek g R st = Ret (t, st1) -> inv st ->
    inv st1 /\ (exists m R', p_pend st1 = Some (t, m, R') /\ (p_pend st = None -> strip false (p_inp st) = m ++ p_inp st1)) /\ (good st1 -> good st /\ f_peek (fl Initial st) = Ret (Some t, fl Initial st1)).
  Proof.
    intros (R1 & R2 & R3) E I. unfold peek, token in E. destruct (p_pend st) as [[[t0 m0] R0]|] eqn:Pd.
    - destruct (negb _) in E; [discriminate|]. cbn [obind] in E. injection E as <- <-. split; [exact I|]. split; [exists m0, R0; split; [exact Pd|discriminate]|]. intros K. split; [exact K|].
      unfold f_peek, f_token, fl. rewrite Pd. reflexivity.
    - destruct (scan g R (p_inp st)) as [[[t1 m] r]|e] eqn:Sc; [|discriminate]. cbn [obind] in E. injection E as <- <-. unfold inv in I. rewrite Pd in I.
      destruct (at_initial g s0 G P0 R (p_inp st) t1 m r I Sc R1 R2) as (B1 & B2 & B3 & B4 & B5).
      split; [unfold inv; cbn [p_pend p_inp]; tauto|]. split; [exists m, R; split; [reflexivity|intros _; exact B5]|]. intros K. split; [unfold good; now rewrite Pd|].
      unfold good in K. cbn [p_pend p_inp] in K. unfold f_peek, f_token, fl. rewrite Pd. cbn [f_pend f_start f_inp p_pend p_inp].
      rewrite (initial_token g R (p_inp st) t1 m r G Sc R1 R2 R3 (at_plain s0 P0 _ _ I) K). reflexivity.
  Qed.
  Lemma take_sim t st y st' t0 m R c : take g t st = Ret (y, st') -> p_pend st = Some (t0, m, R) ->
    t0 = t /\ y = m /\ st' = PS (p_inp st) None /\ f_take t (fl c st) = Ret (m, fl (after t c) st').
  Proof.
    intros E Pd. unfold take, token in E. rewrite Pd in E. destruct (negb _) in E; [discriminate|]. cbn [obind] in E. destruct (tok_eqb t0 t) eqn:T; [|discriminate]. injection E as <- <-.
    pose proof (proj1 (tok_eqb_eq _ _) T) as ->. split; [reflexivity|]. split; [reflexivity|]. split; [reflexivity|].
    unfold f_take, f_token, fl. rewrite Pd. cbn [f_pend obind is_tok p_pend p_inp]. rewrite T. reflexivity.
  Qed.
  Lemma inv_taken t m R st : inv st -> p_pend st = Some (t, m, R) -> t <> StartSc -> inv (PS (p_inp st) None) /\ after t Initial = Initial.
  Proof.
    intros I Pd Nt. unfold inv in I. rewrite Pd in I. destruct I as (I & O & _). assert (after t Initial = Initial) as E.
    { unfold outside in O. cbn [In] in O. decompose [or] O; try subst t; try reflexivity; contradiction. }
    split; [|exact E]. rewrite E in I. exact I.
  Qed.
  Lemma is_tok_eq t t' : is_tok t (Some t') = tok_eqb t' t. Proof. reflexivity. Qed.

  (** Text fields. *)
  Lemma sc_rest_sim fuel : forall acc inp x st', sc_rest fuel g acc (PS inp None) = Ret (x, st') -> at_ s0 Alltext inp ->
    p_pend st' = None /\ at_ s0 Initial (p_inp st') /\ f_sc_rest fuel acc (FS inp Alltext None) = Ret (x, fl Initial st').
  Proof.
    induction fuel as [|fuel IH]; intros acc inp x st' E A; cbn [sc_rest f_sc_rest] in *.
    all: unfold peek at 1, token in E; cbn [p_pend p_inp] in E; destruct (scan g [ScLine; EndSc] inp) as [[[t m] r]|e] eqn:Sc; [|discriminate]; cbn [obind] in E.
    all: destruct (at_text g s0 G P0 H0 inp t m r A Sc) as (B1 & B2 & B3).
    all: unfold f_peek, f_token; cbn [f_pend f_start f_inp]; rewrite B3; cbn [obind]; rewrite is_tok_eq.
    - destruct B2 as [-> | ->]; [discriminate|]. change (tok_eqb EndSc ScLine) with false in *. cbn iota in *.
      unfold take, token in E. cbn [p_pend p_inp] in E. destruct (negb _) in E; [discriminate|]. cbn [obind] in E. change (tok_eqb EndSc EndSc) with true in E. cbn iota in E. cbn [obind fst snd p_inp] in E. injection E as <- <-.
      split; [reflexivity|]. split; [exact B1|]. reflexivity.
    - destruct B2 as [-> | ->].
      + change (tok_eqb ScLine ScLine) with true in *. cbn iota in *. unfold take, token in E. cbn [p_pend p_inp] in E. destruct (negb _) in E; [discriminate|]. cbn [obind] in E. change (tok_eqb ScLine ScLine) with true in E. cbn iota in E. cbn [obind fst snd p_inp] in E.
        destruct (IH _ _ _ _ E B1) as (C1 & C2 & C3). split; [exact C1|]. split; [exact C2|]. unfold f_take, f_token. cbn [f_pend obind is_tok]. change (tok_eqb ScLine ScLine) with true. cbn iota. cbn [obind fst snd f_inp f_start after]. exact C3.
      + change (tok_eqb EndSc ScLine) with false in *. cbn iota in *.
        unfold take, token in E. cbn [p_pend p_inp] in E. destruct (negb _) in E; [discriminate|]. cbn [obind] in E. change (tok_eqb EndSc EndSc) with true in E. cbn iota in E. cbn [obind fst snd p_inp] in E. injection E as <- <-.
        split; [reflexivity|]. split; [exact B1|]. reflexivity.
  Qed.

  Lemma first_v : value_first g = v_first. Proof. destruct G as [-> | ->]; reflexivity. Qed.
  Ltac ok := split; [discriminate|split; [intros ? K; cbn in K; cbn; intuition congruence|intros K; cbn in K; cbn; intuition congruence]].
  Lemma ok_v : okR v_first. Proof. ok. Qed.
  Lemma ok_fields : okR (DataName :: v_first). Proof. ok. Qed.
  Lemma ok_values : okR (v_first ++ item_follow). Proof. ok. Qed.
  Lemma ok_item : okR [LBlock; DataName]. Proof. ok. Qed.
  Lemma ok_follow : okR item_follow. Proof. ok. Qed.
  Lemma ok_file : okR [DataHeading; End]. Proof. ok. Qed.

  Lemma value_good m r R inp : value_fit g (VStr (stripstring m)) -> good (PS inp (Some (Value1, m, R))) /\ tok_fit g Value1 m r.
  Proof.
    intros F. assert (tok_fit g Value1 m r) as K; [|split; [exact K|exact K]]. cbn [tok_fit]. destruct m as [|c m]; [exact I|].
    destruct (N.eq_dec c 39) as [->|N1]; [left; now left|]. destruct (N.eq_dec c 34) as [->|N2]; [left; now right|]. right.
    assert (stripstring (c :: m) = c :: m) as E.
    { unfold stripstring. cbn [first_is]. apply N.eqb_neq in N1, N2. unfold sq, dq. now rewrite N1, N2. }
    rewrite E in F. destruct (F _ eq_refl) as [F1 F2]. split; [exact F1|]. intros Hg. destruct (F2 Hg) as [F3 F4]. cbn [first_is] in F3, F4. split; now apply N.eqb_neq.
  Qed.
  Lemma value_sim st v st' : data_value g st = Ret (v, st') -> inv st -> p_pend st' = None /\ inv st' /\ (value_fit g v -> good st /\ f_value (fl Initial st) = Ret (v, fl Initial st')).
  Proof.
    unfold data_value. intros E Iv. cbn [value_go] in E. rewrite first_v in E. destruct (peek g v_first st) as [[t st1]|e] eqn:Pk; [|discriminate]. cbn [obind] in E.
    destruct (peek_sim v_first st t st1 ok_v Pk Iv) as (I1 & (m & R & Pd & _) & Go).
    assert (In t outside) as O by (unfold inv in I1; rewrite Pd in I1; tauto). unfold outside in O. cbn [In] in O.
    assert (t = Value1 \/ t = StartSc) as [-> | ->] by (decompose [or] O; try subst t; try discriminate E; tauto).
    - destruct (take g Value1 st1) as [[y st2]|e] eqn:Tk; [|discriminate]. cbn [obind fst snd] in E.
      destruct (take_sim _ _ _ _ _ _ _ Initial Tk Pd) as (_ & -> & -> & Ft). destruct (inv_taken _ _ _ _ I1 Pd ltac:(discriminate)) as [I2 _].
      assert (v = VStr (stripstring m) /\ st' = PS (p_inp st1) None) as [-> ->] by (destruct G as [Gg|Gg]; rewrite Gg in E; injection E as <- <-; now split).
      split; [reflexivity|]. split; [exact I2|]. intros F. assert (good st1) as G1. { unfold good. rewrite Pd. exact (proj2 (value_good m (p_inp st1) R [] F)). }
      destruct (Go G1) as [Gs Fp]. split; [exact Gs|]. unfold f_value. rewrite Fp. cbn [obind]. rewrite is_tok_eq. change (tok_eqb Value1 Value1) with true. cbn iota. rewrite Ft. reflexivity.
    - unfold sc_lines in E. destruct (take g StartSc st1) as [[y st2]|e] eqn:Tk; [|discriminate]. cbn [obind fst snd] in E.
      destruct (take_sim _ _ _ _ _ _ _ Initial Tk Pd) as (_ & -> & -> & Ft). cbn [p_inp] in E.
      destruct (sc_rest (length (p_inp st1)) g m (PS (p_inp st1) None)) as [[x st3]|e] eqn:Sr; [|discriminate]. cbn [obind fst snd] in E. injection E as <- <-.
      assert (at_ s0 Alltext (p_inp st1)) as At by (unfold inv in I1; rewrite Pd in I1; exact (proj1 I1)).
      destruct (sc_rest_sim _ _ _ _ _ Sr At) as (C1 & C2 & C3). split; [exact C1|]. split; [unfold inv; now rewrite C1|]. intros _.
      assert (good st1) as G1 by (unfold good; rewrite Pd; exact I). destruct (Go G1) as [Gs Fp]. split; [exact Gs|].
      unfold f_value. rewrite Fp. cbn [obind]. rewrite !is_tok_eq. change (tok_eqb StartSc Value1) with false. change (tok_eqb StartSc StartSc) with true. cbn iota. unfold f_sc_lines. rewrite Ft. cbn [obind fst snd after].
      change (fl Alltext (PS (p_inp st1) None)) with (FS (p_inp st1) Alltext None). cbn [f_inp]. rewrite C3. reflexivity.
  Qed.

  (** Loops. *)
  Lemma fields_sim fuel : forall acc st ns st', loop_fields fuel g acc st = Ret (ns, st') -> inv st ->
    inv st' /\ (exists l, ns = acc ++ l /\ (l <> [] -> p_pend st = None -> exists m r, strip false (p_inp st) = m ++ r /\ first_is 95 m = true))
    /\ (good st' -> good st /\ f_loop_fields fuel acc (fl Initial st) = Ret (ns, fl Initial st')).
  Proof.
    induction fuel as [|fuel IH]; intros acc st ns st' E Iv; cbn [loop_fields f_loop_fields] in *; rewrite first_v in E.
    all: destruct (peek g (DataName :: v_first) st) as [[t st1]|e] eqn:Pk; [|discriminate]; cbn [obind] in E.
    all: destruct (peek_sim _ st t st1 ok_fields Pk Iv) as (I1 & (m & R & Pd & Sp) & Go).
    - destruct (tok_eqb t DataName) eqn:T; [discriminate|]. destruct (expect (DataName :: v_first) t) eqn:Ex; [|discriminate]. injection E as <- <-. split; [exact I1|]. split; [exists []; rewrite app_nil_r; split; [reflexivity|contradiction]|].
      intros K. destruct (Go K) as [Gs Fp]. split; [exact Gs|]. rewrite Fp. cbn [obind]. rewrite is_tok_eq, T. unfold f_expect, expect in *. now rewrite Ex.
    - destruct (tok_eqb t DataName) eqn:T.
      + pose proof (proj1 (tok_eqb_eq _ _) T) as ->. destruct (take g DataName st1) as [[y st2]|e] eqn:Tk; [|discriminate]. cbn [obind fst snd] in E.
        destruct (take_sim _ _ _ _ _ _ _ Initial Tk Pd) as (_ & -> & -> & Ft). destruct (inv_taken _ _ _ _ I1 Pd ltac:(discriminate)) as [I2 _].
        destruct (IH _ _ _ _ E I2) as (I3 & (l & -> & _) & Go2). split; [exact I3|]. split.
        * exists (m :: l). split; [now rewrite <- app_assoc|]. intros _ Pn. exists m, (p_inp st1). split; [now apply Sp|]. unfold inv in I1. rewrite Pd in I1. destruct I1 as (_ & _ & M & _). unfold matches in M. rewrite re_name in M.
          destruct (m ++ p_inp st1) as [|c s] eqn:Em; [discriminate|]. destruct (N.eqb_spec c 95) as [->|]; [|discriminate]. destruct m as [|d m]; [|cbn [app] in Em; injection Em as -> _; reflexivity].
          destruct (span (name_char g) s) as [[|e x] z]; discriminate M.
        * intros K. destruct (Go2 K) as [_ Fp2]. assert (good st1) as G1 by (unfold good; rewrite Pd; exact I). destruct (Go G1) as [Gs Fp]. split; [exact Gs|].
          rewrite Fp. cbn [obind]. rewrite is_tok_eq, T. rewrite Ft. cbn [obind fst snd after]. exact Fp2.
      + destruct (expect (DataName :: v_first) t) eqn:Ex; [|discriminate]. injection E as <- <-. split; [exact I1|]. split; [exists []; rewrite app_nil_r; split; [reflexivity|contradiction]|].
        intros K. destruct (Go K) as [Gs Fp]. split; [exact Gs|]. rewrite Fp. cbn [obind]. rewrite is_tok_eq, T. unfold f_expect, expect in *. now rewrite Ex.
  Qed.
  Lemma values_sim fuel : forall acc st vs st', loop_values fuel g acc st = Ret (vs, st') -> inv st ->
    inv st' /\ (exists l, vs = acc ++ l) /\ (Forall (value_fit g) vs -> good st' -> good st /\ f_loop_values fuel acc (fl Initial st) = Ret (vs, fl Initial st')).
  Proof.
    induction fuel as [|fuel IH]; intros acc st vs st' E Iv; cbn [loop_values f_loop_values] in *; rewrite first_v in E.
    all: destruct (peek g (v_first ++ item_follow) st) as [[t st1]|e] eqn:Pk; [|discriminate]; cbn [obind] in E.
    all: destruct (peek_sim _ st t st1 ok_values Pk Iv) as (I1 & (m & R & Pd & _) & Go).
    - destruct (expect v_first t) eqn:T; [discriminate|]. destruct (expect (v_first ++ item_follow) t) eqn:Ex; [|discriminate]. injection E as <- <-. split; [exact I1|]. split; [exists []; now rewrite app_nil_r|].
      intros _ K. destruct (Go K) as [Gs Fp]. split; [exact Gs|]. rewrite Fp. cbn [obind]. unfold f_expect, expect in *. now rewrite T, Ex.
    - destruct (expect v_first t) eqn:T.
      + destruct (data_value g st1) as [[v st2]|e] eqn:Dv; [|discriminate]. cbn [obind fst snd] in E. destruct (value_sim _ _ _ Dv I1) as (_ & I2 & Gv).
        destruct (IH _ _ _ _ E I2) as (I3 & (l & ->) & Go2). split; [exact I3|]. split; [exists (v :: l); now rewrite <- app_assoc|]. intros F K. destruct (Go2 F K) as [_ Fp2].
        assert (value_fit g v) as Fv. { rewrite Forall_forall in F. apply F, in_or_app. left. apply in_or_app. right. now left. }
        destruct (Gv Fv) as [G1 Fpv]. destruct (Go G1) as [Gs Fp]. split; [exact Gs|]. rewrite Fp. cbn [obind]. unfold f_expect, expect in *. rewrite T. rewrite Fpv. cbn [obind fst snd]. exact Fp2.
      + destruct (expect (v_first ++ item_follow) t) eqn:Ex; [|discriminate]. injection E as <- <-. split; [exact I1|]. split; [exists []; now rewrite app_nil_r|].
        intros _ K. destruct (Go K) as [Gs Fp]. split; [exact Gs|]. rewrite Fp. cbn [obind]. unfold f_expect, expect in *. now rewrite T, Ex.
  Qed.

  (** Items. *)
  Lemma loop_good st1 m R : inv st1 -> p_pend st1 = Some (LBlock, m, R) -> (exists m2 r2, strip false (p_inp st1) = m2 ++ r2 /\ first_is 95 m2 = true) -> good st1.
  Proof.
    intros Iv Pd (m2 & r2 & Sp & F2). unfold good. rewrite Pd. cbn [tok_fit]. unfold inv in Iv. rewrite Pd in Iv. destruct Iv as (_ & _ & M & (a & Ea)).
    unfold ends_name. destruct (p_inp st1) as [|d r] eqn:Er; [exact I|]. destruct (name_char1 d) eqn:Nd; [|reflexivity]. exfalso.
    assert (lower m = u "loop_") as Lm.
    { unfold matches in M. cbn [tok_re] in M. rewrite re_word in M by words. change (lower (u "LOOP_")) with (u "loop_") in M. change (length (u "LOOP_")) with 5 in M. destruct (starts_with (u "loop_") (lower (m ++ d :: r))) eqn:St; [|discriminate].
      assert (firstn 5 (m ++ d :: r) = m) as K by congruence. destruct (starts_with_split _ _ St) as (z & Ez). rewrite <- K. unfold lower in *. rewrite <- firstn_map, Ez. reflexivity. }
    destruct (A0 a m d r Ea Lm) as [N1 N2]. apply N.eqb_neq in N1, N2. pose proof (name_char1_only _ Nd) as Rd. cbn [strip] in Sp.
    assert ((d =? 10)%N = false /\ (d =? 32)%N = false /\ (d =? 9)%N = false) as (D1 & D2 & D3) by (repeat split; apply N.eqb_neq; lia). rewrite D1, N2, D2, D3 in Sp. cbn [orb] in Sp.
    destruct m2 as [|c m2]; [discriminate F2|]. cbn [app] in Sp. injection Sp as -> _. cbn [first_is] in F2. congruence.
  Qed.
  Lemma item_sim st it st' : data_item g st = Ret (it, st') -> inv st -> inv st' /\ (item_fit g it -> good st' -> good st /\ f_data_item (fl Initial st) = Ret (it, fl Initial st')).
  Proof.
    intros E Iv. unfold data_item in E. destruct (peek g [LBlock; DataName] st) as [[t st1]|e] eqn:Pk; [|discriminate]. cbn [obind] in E.
    destruct (peek_sim _ st t st1 ok_item Pk Iv) as (I1 & (m & R & Pd & _) & Go). destruct (tok_eqb t LBlock) eqn:T.
    - pose proof (proj1 (tok_eqb_eq _ _) T) as ->. destruct (take g LBlock st1) as [[y st2]|e] eqn:Tk; [|discriminate]. cbn [obind fst snd] in E.
      destruct (take_sim _ _ _ _ _ _ _ Initial Tk Pd) as (_ & -> & -> & Ft). destruct (inv_taken _ _ _ _ I1 Pd ltac:(discriminate)) as [I2 _].
      destruct (loop_fields _ g [] (PS (p_inp st1) None)) as [[ns st3]|e] eqn:Lf; [|discriminate]. cbn [obind fst snd] in E.
      destruct (fields_sim _ _ _ _ _ Lf I2) as (I3 & (l & -> & Ln) & Gf). cbn [app] in *.
      destruct (data_value g st3) as [[v st4]|e] eqn:Dv; [|discriminate]. cbn [obind fst snd] in E. destruct (value_sim _ _ _ Dv I3) as (_ & I4 & Gv).
      destruct (loop_values (size st4) g [v] st4) as [[vs st5]|e] eqn:Lv; [|discriminate]. cbn [obind fst snd] in E. injection E as <- <-.
      destruct (values_sim _ _ _ _ _ Lv I4) as (I5 & (l2 & ->) & Gl). split; [exact I5|]. intros [F1 F2] K. destruct (Gl F2 K) as [_ Fl]. inversion F2 as [|? ? Fv _]. subst. destruct (Gv Fv) as [G3 Fv'].
      destruct (Gf G3) as [_ Ff]. assert (good st1) as G1 by (apply (loop_good st1 m R I1 Pd); now apply Ln). destruct (Go G1) as [Gs Fp]. split; [exact Gs|].
      unfold f_data_item. rewrite Fp. cbn [obind]. rewrite is_tok_eq, T. rewrite Ft. cbn [obind fst snd after]. rewrite fl_size, Ff. cbn [obind fst snd]. rewrite Fv'. cbn [obind fst snd]. rewrite fl_size, Fl. reflexivity.
    - destruct (tok_eqb t DataName) eqn:T2; [|discriminate]. pose proof (proj1 (tok_eqb_eq _ _) T2) as ->. destruct (take g DataName st1) as [[y st2]|e] eqn:Tk; [|discriminate]. cbn [obind fst snd] in E.
      destruct (take_sim _ _ _ _ _ _ _ Initial Tk Pd) as (_ & -> & -> & Ft). destruct (inv_taken _ _ _ _ I1 Pd ltac:(discriminate)) as [I2 _].
      destruct (data_value g (PS (p_inp st1) None)) as [[v st4]|e] eqn:Dv; [|discriminate]. cbn [obind fst snd] in E. injection E as <- <-. destruct (value_sim _ _ _ Dv I2) as (_ & I4 & Gv).
      split; [exact I4|]. intros F K. cbn [item_fit] in F. destruct (Gv F) as [_ Fv]. assert (good st1) as G1 by (unfold good; rewrite Pd; exact I). destruct (Go G1) as [Gs Fp]. split; [exact Gs|].
      unfold f_data_item. rewrite Fp. cbn [obind]. rewrite !is_tok_eq, T, T2. rewrite Ft. cbn [obind fst snd after]. rewrite Fv. reflexivity.
  Qed.
  Lemma more_sim fuel : forall acc st its st', data_more fuel g acc st = Ret (its, st') -> inv st ->
    inv st' /\ (exists l, its = acc ++ l) /\ (exists t m R, p_pend st' = Some (t, m, R)) /\ (Forall (item_fit g) its -> good st' -> good st /\ f_data_more fuel acc (fl Initial st) = Ret (its, fl Initial st')).
  Proof.
    induction fuel as [|fuel IH]; intros acc st its st' E Iv; cbn [data_more f_data_more] in *.
    all: destruct (peek g item_follow st) as [[t st1]|e] eqn:Pk; [|discriminate]; cbn [obind] in E.
    all: destruct (peek_sim _ st t st1 ok_follow Pk Iv) as (I1 & (m & R & Pd & _) & Go).
    - destruct (expect [LBlock; DataName] t) eqn:T; [discriminate|]. destruct (expect item_follow t) eqn:Ex; [|discriminate]. injection E as <- <-. split; [exact I1|]. split; [exists []; now rewrite app_nil_r|]. split; [now exists t, m, R|].
      intros _ K. destruct (Go K) as [Gs Fp]. split; [exact Gs|]. rewrite Fp. cbn [obind]. unfold f_expect, expect in *. now rewrite T, Ex.
    - destruct (expect [LBlock; DataName] t) eqn:T.
      + destruct (data_item g st1) as [[it st2]|e] eqn:Di; [|discriminate]. cbn [obind fst snd] in E. destruct (item_sim _ _ _ Di I1) as (I2 & Gi).
        destruct (IH _ _ _ _ E I2) as (I3 & (l & ->) & Pd3 & Go2). split; [exact I3|]. split; [exists (it :: l); now rewrite <- app_assoc|]. split; [exact Pd3|]. intros F K. destruct (Go2 F K) as [G2 Fp2].
        assert (item_fit g it) as Fi. { rewrite Forall_forall in F. apply F, in_or_app. left. apply in_or_app. right. now left. }
        destruct (Gi Fi G2) as [G1 Fpi]. destruct (Go G1) as [Gs Fp]. split; [exact Gs|]. rewrite Fp. cbn [obind]. unfold f_expect, expect in *. rewrite T. rewrite Fpi. cbn [obind fst snd]. exact Fp2.
      + destruct (expect item_follow t) eqn:Ex; [|discriminate]. injection E as <- <-. split; [exact I1|]. split; [exists []; now rewrite app_nil_r|]. split; [now exists t, m, R|].
        intros _ K. destruct (Go K) as [Gs Fp]. split; [exact Gs|]. rewrite Fp. cbn [obind]. unfold f_expect, expect in *. now rewrite T, Ex.
  Qed.
  Lemma seq_sim st its st' : data_seq g st = Ret (its, st') -> inv st -> inv st' /\ (Forall (item_fit g) its -> good st' -> good st /\ f_data_seq (fl Initial st) = Ret (its, fl Initial st')).
  Proof.
    intros E Iv. unfold data_seq in E. destruct (data_item g st) as [[it st1]|e] eqn:Di; [|discriminate]. cbn [obind fst snd] in E. destruct (item_sim _ _ _ Di Iv) as (I1 & Gi).
    destruct (more_sim _ _ _ _ _ E I1) as (I2 & (l & ->) & _ & Gm). split; [exact I2|]. intros F K. destruct (Gm F K) as [G1 Fm]. inversion F as [|? ? Fi _]. subst. destruct (Gi Fi G1) as [Gs Ff].
    split; [exact Gs|]. unfold f_data_seq. rewrite Ff. cbn [obind fst snd]. rewrite fl_size. exact Fm.
  Qed.

  (** Save frames and data blocks. *)
  Definition cfit (cs : list content) : Prop := forall c x, In c cs -> holds c x -> item_fit g x.
  Lemma contents_sim fuel : forall fr st cs st', contents fuel g fr st = Ret (cs, st') -> inv st ->
    inv st' /\ (exists t m R, p_pend st' = Some (t, m, R)) /\ (cfit cs -> good st' -> good st /\ f_contents fuel (fl Initial st) = Ret (cs, fl Initial st')).
  Proof.
    induction fuel as [|fuel IH]; intros fr st cs st' E Iv; cbn [contents f_contents] in *; [discriminate|].
    destruct (peek g item_follow st) as [[t st1]|e] eqn:Pk; [|discriminate]. cbn [obind] in E. destruct (peek_sim _ st t st1 ok_follow Pk Iv) as (I1 & (m & R & Pd & _) & Go).
    assert (negb (fr && match g with G20 => true | _ => false end) = true) as Nf by (destruct G as [-> | ->]; now rewrite andb_false_r). rewrite Nf, andb_true_r in E.
    destruct (expect [LBlock; DataName] t) eqn:T.
    - destruct (data_seq g st1) as [[its st2]|e] eqn:Ds; [|discriminate]. cbn [obind fst snd] in E. destruct (seq_sim _ _ _ Ds I1) as (I2 & Gs2).
      destruct (contents fuel g fr st2) as [[zs st3]|e] eqn:Cz; [|discriminate]. cbn [obind fst snd] in E. injection E as <- <-. destruct (IH _ _ _ _ Cz I2) as (I3 & Pd3 & Gz). split; [exact I3|]. split; [exact Pd3|].
      intros F K. assert (cfit zs) as Fz by (intros c x Hc; apply F; now right). destruct (Gz Fz K) as [G2 Fz'].
      assert (Forall (item_fit g) its) as Fi. { apply Forall_forall. intros x Hx. apply (F (CItems its) x); [now left|now constructor]. }
      destruct (Gs2 Fi G2) as [G1 Fs]. destruct (Go G1) as [Gs Fp]. split; [exact Gs|]. rewrite Fp. cbn [obind]. unfold f_expect, expect in *. rewrite T, Fs. cbn [obind fst snd]. rewrite Fz'. reflexivity.
    - destruct (tok_eqb t SaveHeading) eqn:T2.
      + pose proof (proj1 (tok_eqb_eq _ _) T2) as ->. destruct (take g SaveHeading st1) as [[y st2]|e] eqn:Tk; [|discriminate]. cbn [obind fst snd] in E.
        destruct (take_sim _ _ _ _ _ _ _ Initial Tk Pd) as (_ & -> & -> & Ft). destruct (inv_taken _ _ _ _ I1 Pd ltac:(discriminate)) as [I2 _].
        destruct (contents fuel g true (PS (p_inp st1) None)) as [[ys st3]|e] eqn:Cy; [|discriminate]. cbn [obind fst snd] in E. destruct (IH _ _ _ _ Cy I2) as (I3 & (t3 & m3 & R3 & Pd3) & Gy).
        destruct (take g SaveEnd st3) as [[y4 st4]|e] eqn:Tk4; [|discriminate]. cbn [obind fst snd] in E.
        destruct (take_sim _ _ _ _ _ _ _ Initial Tk4 Pd3) as (-> & -> & -> & Ft4). destruct (inv_taken _ _ _ _ I3 Pd3 ltac:(discriminate)) as [I4 _].
        destruct (contents fuel g fr (PS (p_inp st3) None)) as [[zs st5]|e] eqn:Cz; [|discriminate]. cbn [obind fst snd] in E. injection E as <- <-. destruct (IH _ _ _ _ Cz I4) as (I5 & Pd5 & Gz). split; [exact I5|]. split; [exact Pd5|].
        intros F K. assert (cfit zs) as Fz by (intros c x Hc; apply F; now right). assert (cfit ys) as Fy by (intros c x Hc Hx; apply (F (CFrame (skipn 5 m) ys) x); [now left|now apply (hd_frame _ ys c x)]).
        destruct (Gz Fz K) as [_ Fz']. assert (good st3) as G3 by (unfold good; rewrite Pd3; exact I). destruct (Gy Fy G3) as [_ Fy']. assert (good st1) as G1 by (unfold good; rewrite Pd; exact I). destruct (Go G1) as [Gs Fp].
        split; [exact Gs|]. rewrite Fp. cbn [obind]. unfold f_expect, expect in *. rewrite T. rewrite is_tok_eq, T2. rewrite Ft. cbn [obind fst snd after]. rewrite Fy'. cbn [obind fst snd]. rewrite Ft4. cbn [obind fst snd after]. rewrite Fz'. reflexivity.
      + destruct (expect item_follow t) eqn:Ex; [|discriminate]. injection E as <- <-. split; [exact I1|]. split; [now exists t, m, R|]. intros _ K. destruct (Go K) as [Gs Fp]. split; [exact Gs|]. rewrite Fp. cbn [obind]. unfold f_expect, expect in *. rewrite T, is_tok_eq, T2. now rewrite Ex.
  Qed.
  Lemma file_sim fuel : forall acc st bs, parse_more fuel g acc st = Ret bs -> inv st -> (exists l, bs = acc ++ l) /\ (blocks_fit g bs -> good st /\ f_more fuel acc (fl Initial st) = Ret bs).
  Proof.
    induction fuel as [|fuel IH]; intros acc st bs E Iv; cbn [parse_more f_more] in *.
    all: destruct (peek g [DataHeading; End] st) as [[t st1]|e] eqn:Pk; [|discriminate]; cbn [obind] in E.
    all: destruct (peek_sim _ st t st1 ok_file Pk Iv) as (I1 & (m & R & Pd & _) & Go).
    - destruct (tok_eqb t DataHeading) eqn:T; [discriminate|]. destruct (take g End st1) as [[y st2]|e] eqn:Tk; [|discriminate]. cbn [obind] in E. injection E as <-.
      destruct (take_sim _ _ _ _ _ _ _ Initial Tk Pd) as (-> & -> & -> & Ft). split; [exists []; now rewrite app_nil_r|]. intros _. assert (good st1) as G1 by (unfold good; rewrite Pd; exact I). destruct (Go G1) as [Gs Fp].
      split; [exact Gs|]. rewrite Fp. cbn [obind]. rewrite is_tok_eq, T. rewrite Ft. reflexivity.
    - destruct (tok_eqb t DataHeading) eqn:T.
      + pose proof (proj1 (tok_eqb_eq _ _) T) as ->. unfold parse_dblock in E. destruct (take g DataHeading st1) as [[y st2]|e] eqn:Tk; [|discriminate]. cbn [obind fst snd] in E.
        destruct (take_sim _ _ _ _ _ _ _ Initial Tk Pd) as (_ & -> & -> & Ft). destruct (inv_taken _ _ _ _ I1 Pd ltac:(discriminate)) as [I2 _].
        destruct (contents _ g false (PS (p_inp st1) None)) as [[cs st3]|e] eqn:Cc; [|discriminate]. cbn [obind fst snd] in E. destruct (contents_sim _ _ _ _ _ Cc I2) as (I3 & _ & Gc).
        destruct (IH _ _ _ E I3) as ((l & ->) & Gl). split; [exists (DBlock (skipn 5 m) cs :: l); now rewrite <- app_assoc|]. intros F. destruct (Gl F) as [G3 Fl].
        assert (cfit cs) as Fc. { intros c x Hc. apply (F (DBlock (skipn 5 m) cs) c x); [|exact Hc]. apply in_or_app. left. apply in_or_app. right. now left. }
        destruct (Gc Fc G3) as [_ Fc']. assert (good st1) as G1 by (unfold good; rewrite Pd; exact I). destruct (Go G1) as [Gs Fp]. split; [exact Gs|].
        rewrite Fp. cbn [obind]. rewrite is_tok_eq, T. unfold f_dblock. rewrite Ft. cbn [obind fst snd after]. rewrite fl_size, Fc'. cbn [obind fst snd]. exact Fl.
      + destruct (take g End st1) as [[y st2]|e] eqn:Tk; [|discriminate]. cbn [obind] in E. injection E as <-.
        destruct (take_sim _ _ _ _ _ _ _ Initial Tk Pd) as (-> & -> & -> & Ft). split; [exists []; now rewrite app_nil_r|]. intros _. assert (good st1) as G1 by (unfold good; rewrite Pd; exact I). destruct (Go G1) as [Gs Fp].
        split; [exact Gs|]. rewrite Fp. cbn [obind]. rewrite is_tok_eq, T. rewrite Ft. reflexivity.
  Qed.
  Lemma nul_free s : plain_text s -> until_nul s = s.
  Proof. induction s as [|c s IH]; intros P; [reflexivity|]. apply plain_cons in P. destruct P as [Pc P]. cbn [until_nul]. assert ((c =? 0)%N = false) as -> by (apply N.eqb_neq; lia). now rewrite IH. Qed.
  Theorem file_same bs : parse_file g s0 = Ret bs -> blocks_fit g bs -> flex_file s0 = Ret bs.
  Proof.
    unfold parse_file, flex_file. intros E F. rewrite (nul_free s0 P0). assert (inv (PS s0 None)) as Iv by apply at_start. destruct (file_sim _ _ _ _ E Iv) as [_ K]. exact (proj2 (K F)).
  Qed.
End Sim.
