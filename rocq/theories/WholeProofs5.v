(** The parser follows the tokens: values. *)
From Coq Require Import String Ascii List NArith PeanoNat Bool Lia.
From Verif Require Import PyBase PyFacts RegexModel RegexFacts FoldModel ScanModel ReadModel ParseModel
  ScanFacts ScanSpec ScanProofs ScanProofs2 ScanProofs3 TextProofs TextProofs2 ParseSpec GrammarSpec WholeSpec WholeProofs WholeProofs2 WholeProofs3 WholeProofs4.
Import ListNotations.
Open Scope nat_scope.

Section Follow.
Context (g : grammar).
Definition next (ts : list lexeme) : tok := match ts with [] => End | (t, _) :: _ => t end.
(** The parser has looked at the next token, under the restriction [R]. *)
Definition looked (ts : list lexeme) (R : list tok) (st : pstate) : Prop :=
  match ts with
  | [] => st = PS [] (Some (End, [], R))
  | (t, m) :: ts' => exists s, st = PS s (Some (t, m, R)) /\ set_out g ts' s /\ m <> []
  end.
Definition fresh (ts : list lexeme) (st : pstate) : Prop := exists s, st = PS s None /\ set_out g ts s.
(** The next token can be looked at under the restriction [R]. *)
Definition ready (ts : list lexeme) (R : list tok) (st : pstate) : Prop :=
  fresh ts st /\ place g R \/ exists R', looked ts R' st /\ incl R R'.

Lemma peek_ready ts R st : ready ts R st -> place g R -> In (next ts) R -> exists st' R', peek g R st = Ret (next ts, st') /\ looked ts R' st' /\ incl R R'.
Proof.
  intros [[(s & -> & S) _]|(R' & L & I)] P H.
  - inversion S as [w W|w t m s' ts' W Z T S']; subst; cbn [next] in *.
    + eexists. exists R. split; [apply (peek_fresh g R s End [] []); now apply end_scan_spaced|]. split; [reflexivity|apply incl_refl].
    + destruct (place_normal g R t P H) as [Hn _].
      assert (t <> ScLine /\ t <> EndSc) as [N1 N2] by (split; intros ->; cbn in Hn; intuition discriminate).
      eexists. exists R. split; [apply (peek_fresh g R _ t m s'); now apply place_scan|]. split; [|apply incl_refl].
      exists s'. split; [reflexivity|]. split; [exact S'|]. exact (proj2 (token_begins g t m s' N1 N2 T)).
  - exists st, R'. split; [|split; assumption]. pose proof (place_nonempty g R P) as Hne.
    destruct ts as [|[t m] ts]; cbn [looked next] in *; [subst st|destruct L as (s & -> & _)]; apply peek_pend; auto.
Qed.
Lemma take_looked t m ts R st : looked ((t, m) :: ts) R st -> In t R -> exists st', take g t st = Ret (m, st') /\ fresh ts st'.
Proof.
  intros (s & -> & S & _) H. exists (PS s None). split; [apply take_pend; [exact H|intros ->; destruct H]|]. exists s. split; [reflexivity|exact S].
Qed.
Lemma ready_looked ts R R' st : looked ts R' st -> incl R R' -> ready ts R st.
Proof. intros L I. right. exists R'. split; assumption. Qed.
Lemma ready_fresh ts R st : fresh ts st -> place g R -> ready ts R st.
Proof. intros F P. left. split; assumption. Qed.
Lemma set_length ts s : set_out g ts s -> length ts <= length s.
Proof.
  induction 1 as [|w t m s ts W Z T S IH]; [cbn; lia|]. rewrite !app_length. cbn [length].
  assert (m <> []) as Hm.
  { destruct (tok_eq_dec t ScLine) as [->|N1]; [destruct T as (c & x & y & -> & _); discriminate|].
    destruct (tok_eq_dec t EndSc) as [->|N2]; [cbn in T; subst m; discriminate|]. exact (proj2 (token_begins g t m s N1 N2 T)). }
  destruct m; [congruence|cbn [length]; lia].
Qed.
Lemma fresh_size ts st : fresh ts st -> length ts <= size st.
Proof. intros (s & -> & S). unfold size. cbn. pose proof (set_length ts s S). lia. Qed.
Lemma looked_size ts R st : looked ts R st -> length ts <= size st.
Proof.
  destruct ts as [|[t m] ts]; cbn [looked]; [cbn; lia|]. intros (s & -> & S & Hm). unfold size. cbn. pose proof (set_length ts s S). destruct m; [congruence|cbn; lia].
Qed.
Lemma ready_size ts R st : ready ts R st -> length ts <= size st.
Proof. intros [[F _]|(R' & L & _)]; [now apply fresh_size|eapply looked_size; eassumption]. Qed.

(** ** Text fields *)
Lemma sc_follow ls : forall e ts s acc fuel, set_out g (map (fun l => (ScLine, l)) ls ++ (EndSc, e) :: ts) s -> length ls <= fuel ->
  exists s', sc_rest fuel g acc (PS s None) = Ret (acc ++ concat ls ++ e, PS s' None) /\ set_out g ts s'.
Proof.
  induction ls as [|l ls IH]; intros e ts s acc fuel S L; cbn [map app concat] in *.
  - inversion S as [|w t m s' ts' W Z T S']; subst. rewrite (Z (or_intror eq_refl)). cbn [token_at] in T. subst e. cbn [app].
    exists s'. split; [apply sc_rest_end|exact S'].
  - inversion S as [|w t m s' ts' W Z T S']; subst. rewrite (Z (or_introl eq_refl)). cbn [app]. cbn in L. destruct fuel as [|fuel]; [lia|].
    destruct (IH e ts s' (acc ++ l) fuel S' ltac:(lia)) as (s2 & E & S2). exists s2. split; [|exact S2].
    rewrite (sc_rest_line fuel g acc (l ++ s') l s'); [rewrite E; now rewrite <- !app_assoc|].
    destruct T as (c & x & y & -> & H1 & H2 & H3 & Hx & Hy & Hy2 & Hs). cbn [app]. rewrite <- app_assoc.
    apply scline_wins; [now apply N.eqb_neq| |now apply not_eol_true|now apply eols_true|exact Hy|now apply line_over_eol|].
    + unfold eol, is_eol in *. apply orb_false_iff. split; apply N.eqb_neq; tauto.
    + intros m' x' M. rewrite re_ign2_none in M by now apply N.eqb_neq. discriminate.
Qed.

(** ** Values *)
Definition reads_value (v : value) (vs : list lexeme) : Prop :=
  In (next vs) (value_first g) /\ vs <> [] /\
  forall ts st fuel, ready (vs ++ ts) (value_first g) st -> 2 * length vs <= fuel -> exists st', value_go fuel g st = Ret (v, st') /\ fresh ts st'.
Lemma next_app vs ts : vs <> [] -> next (vs ++ ts) = next vs.
Proof. destruct vs; [congruence|reflexivity]. Qed.
Lemma value_place_ok : place g (value_first g).
Proof. now left. Qed.
Lemma read_key k kt R : key_toks k kt -> In TripleQ R -> In SingleQ R -> forall ts st, looked (kt ++ ts) R st \/ (fresh (kt ++ ts) st /\ cif2 g) ->
  exists st', delimited g st = Ret (k, st') /\ fresh ts st'.
Proof.
  intros K H1 H2 ts st F. unfold delimited.
  assert (exists st1 R', peek g [TripleQ; SingleQ] st = Ret (next kt, st1) /\ looked (kt ++ ts) R' st1 /\ In TripleQ R' /\ In SingleQ R') as (st1 & R' & E & L & I1 & I2).
  { destruct F as [L|[F C]].
    - exists st, R. split; [|auto]. destruct K; cbn [one app looked next] in *; destruct L as (s & -> & _); (apply peek_pend; [discriminate|]); intros x [<-|[<-|[]]]; assumption.
    - assert (place g [TripleQ; SingleQ]) as P by (right; left; split; [exact C|tauto]).
      destruct (peek_ready (kt ++ ts) [TripleQ; SingleQ] st (ready_fresh _ _ _ F P) P) as (st' & R' & E & L & I).
      + destruct K; cbn; tauto.
      + exists st', R'. split; [destruct K; exact E|]. split; [exact L|]. split; apply I; cbn; tauto. }
  rewrite E. cbn [obind]. destruct K as [m|m]; cbn [one app next] in *.
  - destruct (take_looked TripleQ m ts R' st1 L I1) as (st' & -> & F'). cbn [tok_eqb obind]. exists st'. split; [reflexivity|exact F'].
  - destruct (take_looked SingleQ m ts R' st1 L I2) as (st' & -> & F'). cbn [obind]. exists st'. split; [reflexivity|exact F'].
Qed.
Lemma take_colon c ts st : fresh ((Colon, c) :: ts) st -> exists st', take g Colon st = Ret (c, st') /\ fresh ts st'.
Proof.
  intros (s & -> & S). inversion S as [|w t m s' ts' W Z T S']; subst. cbn [token_at] in T. destruct T as [C ->].
  exists (PS s' None). split; [|exists s'; split; [reflexivity|exact S']]. apply take_fresh. now apply colon_scan.
Qed.
Lemma list_follow_eq : match g with GS2 => Comma :: CSquare :: value_first g | _ => CSquare :: value_first g end = list_set g.
Proof. unfold list_set, closing. destruct g; reflexivity. Qed.
Lemma table_follow_eq : match g with GS2 => [Comma; CCurl; TripleQ; SingleQ] | _ => [CCurl; TripleQ; SingleQ] end = table_set g.
Proof. unfold table_set, closing. destruct g; reflexivity. Qed.
Lemma list_place : cif2 g -> place g (list_set g). Proof. intros C. right. left. tauto. Qed.
Lemma table_place : cif2 g -> place g (table_set g). Proof. intros C. right. left. tauto. Qed.
Lemma first_in_list t : In t (value_first g) -> In t (list_set g). Proof. intros H. apply in_or_app. now right. Qed.
Lemma first_not_comma t : In t (value_first g) -> tok_eqb t Comma = false /\ expect (value_first g) t = true.
Proof. intros H. split; [destruct g; cbn in H; repeat (destruct H as [<-|H]; [reflexivity|]); destruct H|]. unfold expect. now apply tmem_In. Qed.
Lemma list_go_eq fuel inner acc st : list_go (S fuel) g inner acc st =
    obind (peek g (list_set g) st) (fun x =>
    match x with (t, st1) =>
      if negb (expect (list_set g) t) then Raise SyntaxErr
      else if inner && tok_eqb t Comma then
        obind (take g Comma st1) (fun y =>
        obind (value_go fuel g (snd y)) (fun z => list_go fuel g true (fst z :: acc) (snd z)))
      else if expect (value_first g) t then
        obind (value_go fuel g st1) (fun z => list_go fuel g true (fst z :: acc) (snd z))
      else obind (take g CSquare st1) (fun y => Ret (acc, snd y))
    end).
Proof. cbn [list_go]. rewrite list_follow_eq. reflexivity. Qed.
Definition pair_go fuel acc st := 
  obind (delimited g st) (fun k => obind (take g Colon (snd k)) (fun c => obind (value_go fuel g (snd c)) (fun z => table_go fuel g true ((fst k, fst z) :: acc) (snd z)))).
Lemma table_go_eq fuel inner acc st : table_go (S fuel) g inner acc st =
    obind (peek g (table_set g) st) (fun x =>
    match x with (t, st1) =>
      if negb (expect (table_set g) t) then Raise SyntaxErr
      else if inner && tok_eqb t Comma then obind (take g Comma st1) (fun y => pair_go fuel acc (snd y))
      else if expect [TripleQ; SingleQ] t then pair_go fuel (match g with GS2 => [] | _ => acc end) st1
      else obind (take g CCurl st1) (fun y => Ret (acc, snd y))
    end).
Proof. cbn [table_go]. rewrite table_follow_eq. reflexivity. Qed.
Definition some {A} (l : list A) : bool := match l with [] => false | _ => true end.
Definition reads_list (l : list value) (ls : list lexeme) : Prop := forall ts st fuel, fresh (ls ++ ts) st -> 2 * length ls + 2 <= fuel ->
  exists st' fuel', list_go fuel g false [] st = list_go fuel' g (some l) (rev l) st' /\ fresh ts st' /\ fuel <= fuel' + length ls.
Definition reads_table (l : list (str * value)) (ls : list lexeme) : Prop := (l = [] -> ls = []) /\ forall ts st fuel, fresh (ls ++ ts) st -> 2 * length ls + 2 <= fuel ->
  exists st' fuel', table_go fuel g false [] st = table_go fuel' g (some l) (rev l) st' /\ fresh ts st' /\ fuel <= fuel' + length ls.
Lemma some_snoc {A} (l : list A) x : some (l ++ [x]) = true. Proof. destruct l; reflexivity. Qed.
Scheme value_toks_mut := Minimality for value_toks Sort Prop with list_toks_mut := Minimality for list_toks Sort Prop with table_toks_mut := Minimality for table_toks Sort Prop.

Lemma pair_reads k kt c v vs : key_toks k kt -> reads_value v vs -> forall acc ts st R fuel, 
  looked (kt ++ one Colon c ++ vs ++ ts) R st /\ In TripleQ R /\ In SingleQ R \/ (fresh (kt ++ one Colon c ++ vs ++ ts) st /\ cif2 g) -> 2 * length vs <= fuel ->
  exists st', pair_go fuel acc st = table_go fuel g true ((k, v) :: acc) st' /\ fresh ts st'.
Proof.
  intros K (_ & _ & V) acc ts st R fuel F L. unfold pair_go.
  assert (exists st', delimited g st = Ret (k, st') /\ fresh (one Colon c ++ vs ++ ts) st') as (st1 & -> & F1).
  { destruct F as [(F & I1 & I2)|[F C]]; [apply (read_key k kt R K I1 I2); now left|apply (read_key k kt [TripleQ; SingleQ] K); [cbn; tauto|cbn; tauto|right; split; assumption]]. }
  cbn [obind snd fst]. destruct (take_colon c (vs ++ ts) st1 F1) as (st2 & -> & F2). cbn [obind snd fst].
  destruct (V ts st2 fuel (ready_fresh _ _ _ F2 value_place_ok) L) as (st3 & -> & F3). cbn [obind snd fst]. exists st3. split; [reflexivity|exact F3].
Qed.

Theorem values_read : (forall v vs, value_toks g v vs -> reads_value v vs).
Proof.
  apply (value_toks_mut g reads_value (fun l ls => cif2 g -> reads_list l ls) (fun l ls => cif2 g -> reads_table l ls)).
  - intros m. split; [destruct g; cbn; tauto|]. split; [discriminate|]. intros ts st fuel F L. cbn in L. destruct fuel as [|fuel]; [lia|]. cbn [value_go].
    destruct (peek_ready _ _ _ F value_place_ok) as (st1 & R' & -> & K & I); [destruct g; cbn; tauto|]. cbn [obind one app next] in *.
    destruct (take_looked Value1 m ts R' st1 K) as (st2 & -> & F2); [apply I; destruct g; cbn; tauto|]. cbn [obind fst snd]. exists st2. split; [reflexivity|exact F2].
  - intros m ls e. split; [destruct g; cbn; tauto|]. split; [discriminate|]. intros ts st fuel F L. cbn in L. destruct fuel as [|fuel]; [lia|]. cbn [value_go].
    destruct (peek_ready _ _ _ F value_place_ok) as (st1 & R' & -> & K & I); [destruct g; cbn; tauto|]. cbn [obind one app next] in *.
    destruct (take_looked StartSc m _ R' st1 K) as (st2 & E & s & -> & S); [apply I; destruct g; cbn; tauto|].
    unfold sc_lines. rewrite E. cbn [obind fst snd p_inp]. rewrite <- app_assoc in S. cbn [app] in S.
    destruct (sc_follow ls e ts s m (length s) S) as (s' & -> & S').
    { pose proof (set_length _ _ S) as X. rewrite app_length in X. pose proof (map_length (fun l : str => (ScLine, l)) ls) as Y. unfold str in *. lia. }
    cbn [obind fst snd]. exists (PS s' None). split; [reflexivity|exists s'; split; [reflexivity|exact S']].
  - intros k kt C K. assert (In (next kt) [TripleQ; SingleQ]) as Hk by (destruct K; cbn; tauto). assert (kt <> []) as Hne by (destruct K; discriminate).
    assert (In TripleQ (value_first g) /\ In SingleQ (value_first g)) as [V1 V2] by (destruct C as [->| ->]; cbn; tauto).
    split; [destruct Hk as [<-|[<-|[]]]; assumption|]. split; [exact Hne|]. intros ts st fuel F L.
    destruct fuel as [|fuel]; [destruct kt; [congruence|cbn in L; lia]|]. cbn [value_go].
    destruct (peek_ready _ _ _ F value_place_ok) as (st1 & R' & -> & Kl & I); [rewrite next_app by exact Hne; destruct Hk as [<-|[<-|[]]]; assumption|].
    cbn [obind]. rewrite next_app by exact Hne.
    destruct (read_key k kt R' K (I _ V1) (I _ V2) ts st1 (or_introl Kl)) as (st2 & E & F2).
    exists st2. split; [|exact F2]. destruct Hk as [<-|[<-|[]]]; rewrite E; reflexivity.
  - intros o c l ts C Hl IH. specialize (IH C). split; [destruct C as [->| ->]; cbn; tauto|]. split; [discriminate|]. intros ts' st fuel F L.
    cbn in L. rewrite app_length in L. cbn in L. destruct fuel as [|fuel]; [lia|]. cbn [value_go].
    destruct (peek_ready _ _ _ F value_place_ok) as (st1 & R' & -> & K & I); [destruct C as [->| ->]; cbn; tauto|]. cbn [obind one app next] in *.
    destruct (take_looked OSquare o _ R' st1 K) as (st2 & -> & F2); [apply I; destruct C as [->| ->]; cbn; tauto|]. cbn [obind fst snd].
    rewrite <- app_assoc in F2. cbn [app] in F2. destruct (IH _ st2 fuel F2 ltac:(lia)) as (st3 & f3 & -> & F3 & L3).
    destruct f3 as [|f3]; [lia|]. rewrite list_go_eq.
    destruct (peek_ready _ _ _ (ready_fresh _ _ _ F3 (list_place C)) (list_place C)) as (st4 & R4 & -> & K4 & I4); [destruct C as [->| ->]; cbn; tauto|].
    cbn [obind next one app] in *. assert (In CSquare (list_set g)) as HC by (destruct C as [->| ->]; cbn; tauto).
    unfold expect at 1. rewrite (proj2 (tmem_In CSquare (list_set g)) HC). cbn [negb]. replace (tok_eqb CSquare Comma) with false by reflexivity. rewrite andb_false_r.
    replace (expect (value_first g) CSquare) with false by (destruct g; reflexivity).
    destruct (take_looked CSquare c ts' R4 st4 K4 (I4 _ HC)) as (st5 & -> & F5). cbn [obind fst snd]. rewrite rev_involutive. exists st5. split; [reflexivity|exact F5].
  - intros o c l ts C Hl IH. specialize (IH C). destruct IH as [_ IH]. split; [destruct C as [->| ->]; cbn; tauto|]. split; [discriminate|]. intros ts' st fuel F L.
    cbn in L. rewrite app_length in L. cbn in L. destruct fuel as [|fuel]; [lia|]. cbn [value_go].
    destruct (peek_ready _ _ _ F value_place_ok) as (st1 & R' & -> & K & I); [destruct C as [->| ->]; cbn; tauto|]. cbn [obind one app next] in *.
    destruct (take_looked OCurl o _ R' st1 K) as (st2 & -> & F2); [apply I; destruct C as [->| ->]; cbn; tauto|]. cbn [obind fst snd].
    rewrite <- app_assoc in F2. cbn [app] in F2. destruct (IH _ st2 fuel F2 ltac:(lia)) as (st3 & f3 & -> & F3 & L3).
    destruct f3 as [|f3]; [lia|]. rewrite table_go_eq.
    destruct (peek_ready _ _ _ (ready_fresh _ _ _ F3 (table_place C)) (table_place C)) as (st4 & R4 & -> & K4 & I4); [destruct C as [->| ->]; cbn; tauto|].
    cbn [obind next one app] in *. assert (In CCurl (table_set g)) as HC by (destruct C as [->| ->]; cbn; tauto).
    unfold expect at 1. rewrite (proj2 (tmem_In CCurl (table_set g)) HC). cbn [negb]. replace (tok_eqb CCurl Comma) with false by reflexivity. rewrite andb_false_r.
    replace (expect [TripleQ; SingleQ] CCurl) with false by reflexivity.
    destruct (take_looked CCurl c ts' R4 st4 K4 (I4 _ HC)) as (st5 & -> & F5). cbn [obind fst snd]. rewrite rev_involutive. exists st5. split; [reflexivity|exact F5].
  - intros C ts st fuel F L. exists st, fuel. split; [reflexivity|]. split; [exact F|lia].
  - intros l ts v vs Hl IHl Hv (V1 & V2 & V3) C ts' st fuel F L. rewrite app_length in L. rewrite <- app_assoc in F.
    assert (1 <= length vs) as Lv by (destruct vs; [congruence|cbn; lia]).
    destruct (IHl C (vs ++ ts') st fuel F ltac:(lia)) as (st2 & f2 & -> & F2 & L2). destruct f2 as [|f2]; [lia|]. rewrite list_go_eq.
    destruct (peek_ready _ _ _ (ready_fresh _ _ _ F2 (list_place C)) (list_place C)) as (st4 & R4 & -> & K4 & I4); [rewrite next_app by exact V2; now apply first_in_list|].
    cbn [obind]. rewrite next_app by exact V2. destruct (first_not_comma _ V1) as [-> ->]. unfold expect at 1. rewrite (proj2 (tmem_In _ _) (first_in_list _ V1)). cbn [negb]. rewrite andb_false_r.
    destruct (V3 ts' st4 f2) as (st5 & -> & F5); [apply (ready_looked _ _ R4 _ K4); intros x Hx; apply I4; now apply first_in_list|lia|]. cbn [obind fst snd].
    exists st5, f2. rewrite rev_unit, some_snoc, app_length. split; [reflexivity|]. split; [exact F5|lia].
  - intros l ts m v vs Eg Hne Hl IHl Hv (V1 & V2 & V3) C ts' st fuel F L. rewrite !app_length in L. cbn in L. rewrite <- !app_assoc in F.
    assert (1 <= length vs) as Lv by (destruct vs; [congruence|cbn; lia]).
    destruct (IHl C (one Comma m ++ vs ++ ts') st fuel F ltac:(lia)) as (st2 & f2 & -> & F2 & L2). destruct f2 as [|f2]; [lia|]. rewrite list_go_eq.
    assert (In Comma (list_set g)) as HC by (rewrite Eg; cbn; tauto).
    destruct (peek_ready _ _ _ (ready_fresh _ _ _ F2 (list_place C)) (list_place C)) as (st4 & R4 & -> & K4 & I4); [exact HC|].
    cbn [obind next one app] in *. unfold expect at 1. rewrite (proj2 (tmem_In _ _) HC). cbn [negb]. replace (some l) with true by (destruct l; [congruence|reflexivity]).
    replace (true && tok_eqb Comma Comma) with true by reflexivity.
    destruct (take_looked Comma m _ R4 st4 K4 (I4 _ HC)) as (st5 & -> & F5). cbn [obind fst snd].
    destruct (V3 ts' st5 f2 (ready_fresh _ _ _ F5 value_place_ok)) as (st6 & -> & F6); [lia|]. cbn [obind fst snd].
    exists st6, f2. rewrite rev_unit, some_snoc, !app_length. cbn [length]. split; [reflexivity|]. split; [exact F6|lia].
  - intros C. split; [reflexivity|]. intros ts st fuel F L. exists st, fuel. split; [reflexivity|]. split; [exact F|lia].
  - intros l ts k kt c v vs Hg Hl IHl K Hv RV C. split; [destruct l; discriminate|]. intros ts' st fuel F L. rewrite !app_length in L. cbn in L. rewrite <- !app_assoc in F.
    assert (length kt = 1) as Lk by (destruct K; reflexivity). assert (In (next kt) [TripleQ; SingleQ]) as Hk by (destruct K; cbn; tauto). assert (kt <> []) as Hkn by (destruct K; discriminate).
    destruct (IHl C) as [_ IH]. destruct (IH _ st fuel F ltac:(lia)) as (st2 & f2 & -> & F2 & L2). destruct f2 as [|f2]; [lia|]. rewrite table_go_eq.
    assert (incl [TripleQ; SingleQ] (table_set g)) as HI by (intros x Hx; apply in_or_app; now right).
    destruct (peek_ready _ _ _ (ready_fresh _ _ _ F2 (table_place C)) (table_place C)) as (st4 & R4 & -> & K4 & I4); [rewrite next_app by exact Hkn; now apply HI|].
    cbn [obind]. rewrite next_app by exact Hkn. unfold expect. rewrite (proj2 (tmem_In _ _) (HI _ Hk)), (proj2 (tmem_In _ _) Hk). cbn [negb].
    replace (tok_eqb (next kt) Comma) with false by (destruct Hk as [<-|[<-|[]]]; reflexivity). rewrite andb_false_r.
    replace (match g with GS2 => [] | _ => rev l end) with (rev l) by (destruct Hg as [->| ->]; [reflexivity|destruct g; reflexivity]).
    destruct (pair_reads k kt c v vs K RV (rev l) ts' st4 R4 f2) as (st5 & -> & F5); [left; split; [exact K4|split; apply I4, HI; cbn; tauto]|lia|].
    exists st5, f2. rewrite rev_unit, some_snoc, !app_length. cbn [length]. split; [reflexivity|]. split; [exact F5|lia].
  - intros l ts m k kt c v vs Eg Hne Hl IHl K Hv RV C. split; [destruct l; discriminate|]. intros ts' st fuel F L. rewrite !app_length in L. cbn in L. rewrite <- !app_assoc in F.
    assert (length kt = 1) as Lk by (destruct K; reflexivity).
    destruct (IHl C) as [_ IH]. destruct (IH _ st fuel F ltac:(lia)) as (st2 & f2 & -> & F2 & L2). destruct f2 as [|f2]; [lia|]. rewrite table_go_eq.
    assert (In Comma (table_set g)) as HC by (rewrite Eg; cbn; tauto).
    destruct (peek_ready _ _ _ (ready_fresh _ _ _ F2 (table_place C)) (table_place C)) as (st4 & R4 & -> & K4 & I4); [exact HC|].
    cbn [obind next one app] in *. unfold expect at 1. rewrite (proj2 (tmem_In _ _) HC). cbn [negb]. replace (some l) with true by (destruct l; [congruence|reflexivity]).
    replace (true && tok_eqb Comma Comma) with true by reflexivity.
    destruct (take_looked Comma m _ R4 st4 K4 (I4 _ HC)) as (st5 & -> & F5). cbn [obind fst snd].
    destruct (pair_reads k kt c v vs K RV (rev l) ts' st5 R4 f2) as (st6 & -> & F6); [right; split; [exact F5|exact C]|lia|].
    exists st6, f2. rewrite rev_unit, some_snoc, !app_length. cbn [length]. split; [reflexivity|]. split; [exact F6|lia].
  - intros l ts k kt c v vs Eg Hl IHl K Hv RV C. split; [discriminate|]. intros ts' st fuel F L. rewrite !app_length in L. cbn in L. rewrite <- !app_assoc in F.
    assert (length kt = 1) as Lk by (destruct K; reflexivity). assert (In (next kt) [TripleQ; SingleQ]) as Hk by (destruct K; cbn; tauto). assert (kt <> []) as Hkn by (destruct K; discriminate).
    destruct (IHl C) as [_ IH]. destruct (IH _ st fuel F ltac:(lia)) as (st2 & f2 & -> & F2 & L2). destruct f2 as [|f2]; [lia|]. rewrite table_go_eq.
    assert (incl [TripleQ; SingleQ] (table_set g)) as HI by (intros x Hx; apply in_or_app; now right).
    destruct (peek_ready _ _ _ (ready_fresh _ _ _ F2 (table_place C)) (table_place C)) as (st4 & R4 & -> & K4 & I4); [rewrite next_app by exact Hkn; now apply HI|].
    cbn [obind]. rewrite next_app by exact Hkn. unfold expect. rewrite (proj2 (tmem_In _ _) (HI _ Hk)), (proj2 (tmem_In _ _) Hk). cbn [negb].
    replace (tok_eqb (next kt) Comma) with false by (destruct Hk as [<-|[<-|[]]]; reflexivity). rewrite andb_false_r.
    replace (match g with GS2 => [] | _ => rev l end) with (@nil (str * value)) by (rewrite Eg; reflexivity).
    destruct (pair_reads k kt c v vs K RV [] ts' st4 R4 f2) as (st5 & -> & F5); [left; split; [exact K4|split; apply I4, HI; cbn; tauto]|lia|].
    exists st5, f2. rewrite !app_length. cbn [length rev app some]. split; [reflexivity|]. split; [exact F5|lia].
Qed.
End Follow.
