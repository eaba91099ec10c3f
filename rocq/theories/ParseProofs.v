(** Reading printed values back. *)
From Coq Require Import String Ascii List NArith ZArith Bool Lia ZifyBool ZifyN ZifyNat.
From Verif Require Import PyBase PyFacts RegexModel RegexFacts FoldModel StarBlockModel ScanModel FormatModel ReadModel WriteModel ParseModel
  FoldSpec ScanFacts ScanSpec FormatSpec ScanProofs ScanProofs2 ScanProofs3 TextProofs TextProofs2
  FormatProofs FormatProofs2 FormatProofs3 FormatProofs4 ScanProofs4 WriteSpec ParseSpec WriteProofs WriteProofs2.
Import ListNotations.
Open Scope nat_scope.

(** ** Single characters *)
Lemma char_best g ts t c s : In t ts -> tok_re g t = is c ->
  (forall t', In t' ts -> t' <> t -> t' = End \/ (nullable (tok_re g t') = false /\ first_ok (tok_re g t') c = false)) ->
  best_match g ts (c :: s) None = Some (t, [c], s).
Proof.
  intros Hi Ht H. apply best_longest; [exact Hi| |].
  - unfold matches. rewrite Ht. unfold is. rewrite re_chr. now rewrite N.eqb_refl.
  - intros t' m r Hi' Hn M. destruct (H t' Hi' Hn) as [->|[H1 H2]].
    + cbn [tok_re] in M. unfold matches in M. cbn [tok_re] in M. apply end_match in M. subst m. cbn. lia.
    + exfalso. unfold matches in M. rewrite re_none in M by assumption. discriminate.
Qed.
Lemma blanks_skippable w : blanks_only w -> Forall skippable w.
Proof. apply Forall_impl. intros c [->| ->]; unfold skippable; tauto. Qed.
Lemma char_scan g restrict t c s w : In t restrict -> In t (patterns g) -> tok_re g t = is c -> ~ In ScLine restrict -> c <> 59%N -> ignored t = false ->
  (forall t', In t' restrict \/ ignored t' = true -> t' <> t -> t' = End \/ (nullable (tok_re g t') = false /\ first_ok (tok_re g t') c = false)) ->
  blanks_only w -> scan g restrict (w ++ c :: s) = Ret (t, [c], s).
Proof.
  intros Hi Hp Ht Hs Hc Hg H Hw. assert (restrict <> []) as Hne by (intros ->; destruct Hi).
  rewrite scan_blanks; [|exact Hne|exact Hs|now apply blanks_skippable|now apply N.eqb_neq].
  apply scan_first; [|exact Hg]. apply char_best; [|exact Ht|].
  - apply accepted_In; [exact Hne|]. split; [exact Hp|now left].
  - intros t' Hi'. apply accepted_In in Hi'; [|exact Hne]. apply H. tauto.
Qed.

(** ** Reading a value, with the fuel it takes *)
Definition reads (g : grammar) (in_loop : bool) (n : nat) (inp : str) (v : value) (t : str) : Prop :=
  exists tk m rest, In tk (value_tokens g)
  /\ (forall restrict, value_place g in_loop restrict -> scan g restrict inp = Ret (tk, m, rest))
  /\ n <= 2 * (length m + length rest)
  /\ (forall restrict fuel, n <= fuel -> (forall x, In x (value_tokens g) -> In x restrict) ->
        value_go (S fuel) g (PS rest (Some (tk, m, restrict))) = Ret (v, PS t None)).
Lemma reads_text g b inp v t : read_value g b inp v t -> reads g b 0 inp v t.
Proof. intros (tk & m & rest & H1 & H2 & H3). exists tk, m, rest. repeat split; auto. lia. Qed.
Lemma reads_fresh g b n inp v t fuel : n <= fuel -> reads g b n inp v t -> value_go (S fuel) g (PS inp None) = Ret (v, PS t None).
Proof.
  intros L (tk & m & rest & H1 & H2 & _ & H3). specialize (H2 _ (value_first_place g b)).
  specialize (H3 (value_tokens g) fuel L (fun x H => H)). rewrite <- H3.
  rewrite value_first_tokens in H2.
  cbn [value_go]. rewrite value_first_tokens, (peek_fresh _ _ _ _ _ _ H2).
  rewrite peek_value; [|exact H1|auto]. reflexivity.
Qed.
Lemma first_place g b l : (forall t, In t l -> In t [LBlock; DataName; SaveHeading; SaveEnd; DataHeading; End; Comma; CSquare]) -> (In LBlock l -> b = true) ->
  value_place g b (l ++ value_first g).
Proof.
  intros H Hb. rewrite value_first_tokens. split; [split|].
  - intros t Ht. apply in_or_app. now right.
  - intros t Ht. apply in_app_or in Ht. destruct Ht as [Ht|Ht]; [right; now apply H|now left].
  - intros Ht. apply in_app_or in Ht. destruct Ht as [Ht|Ht]; [now apply Hb|]. destruct g; cbn in Ht; intuition discriminate.
Qed.

Section Values.
Variables (g : grammar) (maxout : Z).
Hypothesis Hg : has_triples g.

Lemma open_scan b restrict t c s w : value_place g b restrict -> (t, c) = (OSquare, 91%N) \/ (t, c) = (OCurl, 123%N) ->
  blanks_only w -> scan g restrict (w ++ c :: s) = Ret (t, [c], s).
Proof using Hg.
  intros [[H1 H2] _] Htc Hw. apply char_scan; try exact Hw.
  - apply H1. destruct Hg as [->| ->]; destruct Htc as [E|E]; injection E as -> ->; cbn; tauto.
  - destruct Hg as [->| ->]; destruct Htc as [E|E]; injection E as -> ->; cbn; tauto.
  - destruct Htc as [E|E]; injection E as -> ->; reflexivity.
  - intros Hi. apply H2 in Hi. destruct Hg as [->| ->]; cbn in Hi; intuition discriminate.
  - destruct Htc as [E|E]; injection E as -> ->; discriminate.
  - destruct Htc as [E|E]; injection E as -> ->; reflexivity.
  - intros t' Hi Hn.
    assert (In t' (Ign1 :: Ign2 :: value_tokens g ++ [LBlock; DataName; SaveHeading; SaveEnd; DataHeading; End; Comma; CSquare])) as K.
    { destruct Hi as [Hi|Hi].
      - apply H2 in Hi. right. right. apply in_or_app. exact Hi.
      - destruct t'; try discriminate Hi; cbn; tauto. }
    destruct Hg as [->| ->]; destruct Htc as [E|E]; injection E as -> ->; cbn in K;
    repeat (destruct K as [<-|K]; [try congruence; try (now left); right; split; reflexivity|]); destruct K.
Qed.
Definition list_follow : list tok := match g with GS2 => Comma :: CSquare :: value_first g | _ => CSquare :: value_first g end.
Definition table_follow : list tok := match g with GS2 => [Comma; CCurl; TripleQ; SingleQ] | _ => [CCurl; TripleQ; SingleQ] end.
Lemma list_follow_place : value_place g false list_follow.
Proof using Hg.
  destruct Hg as [E|E]; unfold list_follow; rewrite E.
  - apply (first_place G20 false [CSquare]); cbn; intuition (subst; tauto || discriminate).
  - apply (first_place GS2 false [Comma; CSquare]); cbn; intuition (subst; tauto || discriminate).
Qed.
Lemma sole_scan t c restrict s w : In (t, c, restrict) [(CSquare, 93%N, list_follow); (CCurl, 125%N, table_follow); (Colon, 58%N, [Colon])] ->
  blanks_only w -> scan g restrict (w ++ c :: s) = Ret (t, [c], s).
Proof using Hg.
  intros K Hw. unfold list_follow, table_follow in K. destruct Hg as [E|E]; rewrite E in *; cbn in K;
  (destruct K as [K|[K|[K|[]]]]; injection K as <- <- <-; apply char_scan; try exact Hw; try reflexivity; try discriminate; try (cbn; tauto);
   try (cbn; intuition discriminate); intros t' Hi Hn; destruct t'; try congruence; try (now left); (right; split; reflexivity) || (exfalso; cbn in Hi; intuition discriminate)).
Qed.
Lemma comma_scan restrict s w : g = GS2 -> restrict = list_follow \/ restrict = table_follow ->
  blanks_only w -> scan g restrict (w ++ 44%N :: s) = Ret (Comma, [44%N], s).
Proof using Hg.
  intros E K Hw. unfold list_follow, table_follow in K. rewrite E in *.
  destruct K as [K|K]; subst restrict; apply char_scan; try exact Hw; try reflexivity; try discriminate; try (cbn; tauto);
   try (cbn; intuition discriminate); intros t' Hi Hn; destruct t'; try congruence; try (now left); (right; split; reflexivity) || (exfalso; cbn in Hi; intuition discriminate).
Qed.

(** Fuel for the elements of a list, of a table. *)
Fixpoint need (v : value) : nat :=
  match v with
  | VList l | VSL l => fold_right (fun x n => 2 + need x + n) 1 l
  | VDict d => fold_right (fun kv n => 2 + need (snd kv) + n) 1 d
  | _ => 0
  end.
Definition read_ok (v : value) : Prop := forall b req f w t, prints g maxout req v f -> legible g maxout b req v -> blanks_only w -> (compound v = false -> closes g t) ->
  need v + 2 <= 2 * length f /\ reads g b (need v) (w ++ f ++ t) (canon v) t.

Lemma text_read s : read_ok (VStr s).
Proof using.
  intros b req f w t P L Hw Ht. cbn [prints] in P. inversion L as [? ? ? H| | |]; subst. split.
  - cbn. destruct (format_total g maxout req s) as (f' & E & Hne & _). assert (f = f') as -> by congruence. destruct f'; [congruence|cbn; lia].
  - apply reads_text. cbn [canon]. eapply format_read; eauto. now apply blanks_skippable.
Qed.
Lemma closes_blank w t : blanks_only w -> w <> [] -> closes g (w ++ t).
Proof using. destruct w as [|c w]; [congruence|]. intros H _. inversion H as [|? ? [->| ->]]; subst; left; reflexivity. Qed.
Lemma closes_end c w t : blanks_only w -> c = 93%N \/ c = 125%N -> closes g (w ++ c :: t).
Proof using Hg.
  intros Hw Hc. destruct w as [|x w]; [|now apply (closes_blank (x :: w))]. cbn. right.
  destruct Hg as [->| ->]; [left|right]; (split; [reflexivity|]); destruct Hc as [->| ->]; cbn; tauto.
Qed.
Lemma closes_delim w t : blanks_only w -> closes g (w ++ list_delimiter g ++ t).
Proof using Hg.
  intros Hw. destruct w as [|x w]; [|now apply (closes_blank (x :: w))]. cbn [app].
  destruct Hg as [->| ->]; cbn; [left; reflexivity|right; right; split; [reflexivity|cbn; tauto]].
Qed.
Lemma delimiter_cases : (g = G20 /\ blanks_only (list_delimiter g)) \/ (g = GS2 /\ list_delimiter g = [44; 32]%N).
Proof using Hg. destruct Hg as [->| ->]; [left|right]; (split; [reflexivity|]); [|reflexivity]. repeat constructor. Qed.

Definition needs (l : list value) : nat := fold_right (fun x n => 2 + need x + n) 1 l.
Definition needs_pairs (d : list (str * value)) : nat := fold_right (fun kv n => 2 + need (snd kv) + n) 1 d.
Lemma tail_closes l r t : prints_list g maxout false l r -> closes g (r ++ 93%N :: t).
Proof using Hg.
  destruct l as [|x l]; cbn [prints_list].
  - intros H. apply closes_end; tauto.
  - intros (d & w & fx & r' & -> & _ & (w' & B & ->) & _). rewrite <- !app_assoc. now apply closes_delim.
Qed.
Lemma tail_closes_table l r t : prints_table g maxout false l r -> closes g (r ++ 125%N :: t).
Proof using Hg.
  destruct l as [|[key x] l]; cbn [prints_table].
  - intros H. apply closes_end; tauto.
  - intros (d & w' & w & fx & r' & -> & _ & _ & (w2 & B & ->) & _). rewrite <- !app_assoc. now apply closes_delim.
Qed.
Lemma tokens_expect tk : In tk (value_tokens g) -> expect (value_first g) tk = true /\ expect list_follow tk = true /\ tok_eqb tk Comma = false.
Proof using Hg.
  intros H. unfold expect, list_follow. destruct Hg as [E|E]; rewrite E in *; cbn in H;
  repeat (destruct H as [<-|H]; [now repeat split|]); destruct H.
Qed.
(** One step of the loop over elements, for an element with blanks before it. *)
Lemma list_step fuel inner acc n inp v t : n <= fuel -> reads g false n inp v t ->
  list_go (S (S fuel)) g inner acc (PS inp None) = list_go (S fuel) g true (v :: acc) (PS t None).
Proof using Hg.
  intros Hn (tk & m & rest & H1 & H2 & _ & H3). destruct (tokens_expect tk H1) as (E1 & E2 & E3).
  specialize (H2 _ list_follow_place). specialize (H3 list_follow fuel Hn (proj1 (proj1 list_follow_place))).
  remember (S fuel) as F. cbn [list_go]. fold list_follow. rewrite (peek_fresh _ _ _ _ _ _ H2). cbn [obind]. rewrite E1, E2, E3, andb_false_r. cbn [negb].
  rewrite H3. reflexivity.
Qed.
Lemma list_read l : Forall read_ok l -> Forall (legible g maxout false None) l -> forall first body t acc fuel,
  prints_list g maxout first l body -> needs l <= fuel ->
  needs l <= 1 + 2 * length body
  /\ list_go fuel g (negb first) acc (PS (body ++ 93%N :: t) None) = Ret (rev (map canon l) ++ acc, PS t None).
Proof using Hg.
  induction 1 as [|x l Hx Hl IH]; intros HL first body t acc fuel P F; cbn [prints_list] in P.
  - split; [cbn; lia|]. destruct fuel as [|fuel]; [cbn in F; lia|].
    cbn [list_go]. fold list_follow. rewrite (peek_fresh _ _ _ _ _ _ (sole_scan CSquare 93%N list_follow t body (or_introl eq_refl) P)). cbn [obind].
    assert (expect list_follow CSquare = true /\ expect (value_first g) CSquare = false) as [-> ->].
    { unfold list_follow. destruct Hg as [E|E]; rewrite E; now split. }
    cbn [negb tok_eqb tok_eq_dec]. rewrite andb_false_r. rewrite take_pend; [reflexivity| |].
    + unfold list_follow. destruct g; cbn; tauto.
    + unfold list_follow. destruct g; discriminate.
  - apply Forall_cons_iff in HL. destruct HL as [HLx HL].
    destruct P as (d & w & fx & r & -> & Bw & Hd & Px & Pr).
    cbn [needs fold_right] in F |- *. fold (needs l) in F |- *.
    assert (exists f, fuel = S (S f) /\ need x <= f /\ needs l <= S f) as (f & -> & F1 & F2).
    { destruct fuel as [|[|f]]; [lia|lia|]. exists f. repeat split; lia. }
    pose proof (tail_closes l r t Pr) as Hc.
    assert (exists W u, d ++ w = u ++ W /\ blanks_only W /\ (u = [] \/ (negb first = true /\ g = GS2 /\ exists w', blanks_only w' /\ u = w' ++ [44%N]))) as (W & u0 & E & BW & Hu).
    { destruct first; [subst d; exists w, []; auto|]. destruct Hd as (w' & B' & ->).
      destruct delimiter_cases as [[_ B]|[Eg Ed]].
      - exists ((w' ++ list_delimiter g) ++ w), []. split; [reflexivity|]. split; [apply blanks_app; [now apply blanks_app|exact Bw]|now left].
      - exists (32%N :: w), (w' ++ [44%N]). split; [rewrite Ed; rewrite <- !app_assoc; reflexivity|]. split; [constructor; [now left|exact Bw]|].
        right. repeat split; auto. exists w'. auto. }
    destruct (Hx false None fx W (r ++ 93%N :: t) Px HLx BW (fun _ => Hc)) as [Lx Rx].
    destruct (IH HL false r t (canon x :: acc) (S f) Pr F2) as [Ll Rl].
    split. { rewrite !app_length. lia. }
    replace ((d ++ w ++ fx ++ r) ++ 93%N :: t) with (u0 ++ W ++ fx ++ r ++ 93%N :: t).
    2: { rewrite (app_assoc d). rewrite E. rewrite <- !app_assoc. reflexivity. }
    cbn [map rev]. rewrite <- app_assoc. cbn [app]. cbn [negb] in Rl. rewrite <- Rl.
    destruct Hu as [->|(Hf & Eg & w' & B' & ->)].
    + cbn [app]. now apply (list_step _ _ _ (need x)).
    + rewrite Hf. rewrite <- !app_assoc. cbn [app]. remember (S f) as F'. cbn [list_go]. fold list_follow.
      rewrite (peek_fresh _ _ _ _ _ _ (comma_scan list_follow _ w' Eg (or_introl eq_refl) B')). cbn [obind].
      assert (expect list_follow Comma = true) as -> by (unfold list_follow; rewrite Eg; reflexivity).
      cbn [negb tok_eqb tok_eq_dec andb]. change (tok_eqb Comma Comma) with true. cbv iota.
      rewrite take_pend; [|unfold list_follow; rewrite Eg; now left|unfold list_follow; rewrite Eg; discriminate].
      cbn [obind fst snd]. subst F'. rewrite (reads_fresh _ _ _ _ _ _ _ F1 Rx). reflexivity.
Qed.

(** Tables *)
Lemma key_excl key : key_ok key -> Forall (fun c => ~ In c (excl sq)) key.
Proof using.
  intros (H1 & H2 & H3 & H4). apply quoted_excl; auto.
Qed.
Lemma key_scan restrict key s w : quote_context g restrict -> ~ In ScLine restrict -> key_ok key -> blanks_only w ->
  scan g restrict (w ++ sq :: key ++ sq :: 58%N :: s) = Ret (SingleQ, sq :: key ++ [sq], 58%N :: s).
Proof using Hg.
  intros Hc Hs Hk Hw. rewrite scan_blanks; [|apply (quote_context_quotes g restrict SingleQ Hg Hc); now left|exact Hs|now apply blanks_skippable|reflexivity].
  apply scan_first; [|reflexivity]. apply quoted2_best; auto. now apply key_excl.
Qed.
Lemma key_taken restrict key s : In SingleQ restrict -> In TripleQ restrict ->
  delimited g (PS s (Some (SingleQ, sq :: key ++ [sq], restrict))) = Ret (key, PS s None).
Proof using.
  intros H1 H2. unfold delimited. rewrite peek_pend; [|discriminate|intros x [<-|[<-|[]]]; assumption]. cbn [obind].
  change (tok_eqb SingleQ TripleQ) with false. change (tok_eqb SingleQ SingleQ) with true. cbv iota.
  rewrite take_pend; [|exact H1|intros ->; destruct H1]. cbn [obind fst snd]. rewrite stripstring_quoted by now left. reflexivity.
Qed.
Lemma table_context : quote_context g table_follow /\ ~ In ScLine table_follow /\ In SingleQ table_follow /\ In TripleQ table_follow.
Proof using Hg. unfold table_follow. destruct g; (split; [right; split; [cbn; tauto|split; [cbn; tauto|intros t; cbn; tauto]]|cbn; intuition discriminate]). Qed.
Lemma colon_taken s : take g Colon (PS (58%N :: s) None) = Ret ([58%N], PS s None).
Proof using Hg. apply take_fresh. apply (sole_scan Colon 58%N [Colon] s []); [cbn; tauto|constructor]. Qed.

Lemma table_read l : Forall (fun kv => read_ok (snd kv)) l -> Forall (fun kv => key_ok (fst kv) /\ legible g maxout false None (snd kv)) l ->
  forall first body t acc fuel, (first = true -> acc = []) ->
  prints_table g maxout first l body -> needs_pairs l <= fuel ->
  needs_pairs l <= 1 + 2 * length body
  /\ table_go fuel g (negb first) acc (PS (body ++ 125%N :: t) None)
     = Ret (rev (map (fun kv => (fst kv, canon (snd kv))) l) ++ acc, PS t None).
Proof using Hg.
  destruct table_context as (Q1 & Q2 & Q3 & Q4).
  induction 1 as [|[key x] l Hx Hl IH]; intros HL first body t acc fuel Ha P F; cbn [prints_table] in P.
  - split; [cbn; lia|]. destruct fuel as [|fuel]; [cbn in F; lia|].
    cbn [table_go]. fold table_follow. rewrite (peek_fresh _ _ _ _ _ _ (sole_scan CCurl 125%N table_follow t body (or_intror (or_introl eq_refl)) P)). cbn [obind].
    assert (expect table_follow CCurl = true) as ->. { unfold table_follow. destruct g; reflexivity. }
    change (expect [TripleQ; SingleQ] CCurl) with false.
    cbn [negb tok_eqb tok_eq_dec]. rewrite andb_false_r. rewrite take_pend; [reflexivity| |].
    + unfold table_follow. destruct g; cbn; tauto.
    + unfold table_follow. destruct g; discriminate.
  - apply Forall_cons_iff in HL. destruct HL as [[Hk HLx] HL]. cbn [fst snd] in Hk, HLx, Hx.
    destruct P as (d & w' & w & fx & r & -> & Bw' & Bw & Hd & Px & Pr).
    cbn [needs_pairs fold_right snd] in F |- *. fold (needs_pairs l) in F |- *.
    assert (exists f, fuel = S (S f) /\ need x <= f /\ needs_pairs l <= S f) as (f & -> & F1 & F2).
    { destruct fuel as [|[|f]]; [lia|lia|]. exists f. repeat split; lia. }
    pose proof (tail_closes_table l r t Pr) as Hc.
    assert (exists W u, d ++ w' = u ++ W /\ blanks_only W /\ (u = [] /\ (g = GS2 -> first = true) \/ (negb first = true /\ g = GS2 /\ exists w', blanks_only w' /\ u = w' ++ [44%N]))) as (W & u0 & E & BW & Hu).
    { destruct first; [subst d; exists w', []; auto 6|]. destruct Hd as (w2 & B' & ->).
      destruct delimiter_cases as [[Eg B]|[Eg Ed]].
      - exists ((w2 ++ list_delimiter g) ++ w'), []. split; [reflexivity|]. split; [apply blanks_app; [now apply blanks_app|exact Bw']|left; split; [reflexivity|congruence]].
      - exists (32%N :: w'), (w2 ++ [44%N]). split; [rewrite Ed; rewrite <- !app_assoc; reflexivity|]. split; [constructor; [now left|exact Bw']|].
        right. repeat split; auto. exists w2. auto. }
    destruct (Hx false None fx w (r ++ 125%N :: t) Px HLx Bw (fun _ => Hc)) as [Lx Rx].
    destruct (IH HL false r t ((key, canon x) :: acc) (S f)) as [Ll Rl]; [discriminate|exact Pr|exact F2|].
    split. { rewrite !app_length. lia. }
    replace ((d ++ w' ++ ([sq] ++ key ++ [sq; 58%N]) ++ w ++ fx ++ r) ++ 125%N :: t) with (u0 ++ W ++ sq :: key ++ sq :: 58%N :: (w ++ fx ++ r ++ 125%N :: t)).
    2: { rewrite (app_assoc d). rewrite E. rewrite <- !app_assoc. cbn [app]. rewrite <- ?app_assoc. reflexivity. }
    cbn [map rev fst snd]. rewrite <- app_assoc. cbn [app]. cbn [negb] in Rl. rewrite <- Rl.
    destruct Hu as [[-> Hs]|(Hf & Eg & w2 & B' & ->)].
    + cbn [app]. remember (S f) as F'. cbn [table_go]. fold table_follow.
      rewrite (peek_fresh _ _ _ _ _ _ (key_scan table_follow key (w ++ fx ++ r ++ 125%N :: t) W Q1 Q2 Hk BW)). cbn [obind].
      assert (expect table_follow SingleQ = true) as -> by (unfold table_follow; destruct g; reflexivity).
      change (tok_eqb SingleQ Comma) with false. rewrite andb_false_r. change (expect [TripleQ; SingleQ] SingleQ) with true. cbn [negb].
      rewrite (key_taken table_follow key _ Q3 Q4). cbn [obind fst snd]. rewrite colon_taken. cbn [obind fst snd].
      subst F'. rewrite (reads_fresh _ _ _ _ _ _ _ F1 Rx). cbn [obind fst snd].
      assert (match g with GS2 => [] | _ => acc end = acc) as ->; [|reflexivity].
      destruct g; try reflexivity. symmetry. apply Ha, Hs. reflexivity.
    + rewrite Hf. rewrite <- !app_assoc. cbn [app]. remember (S f) as F'. cbn [table_go]. fold table_follow.
      rewrite (peek_fresh _ _ _ _ _ _ (comma_scan table_follow _ w2 Eg (or_intror eq_refl) B')). cbn [obind].
      assert (expect table_follow Comma = true) as -> by (unfold table_follow; rewrite Eg; reflexivity).
      cbn [negb andb]. change (tok_eqb Comma Comma) with true. cbv iota.
      rewrite take_pend; [|unfold table_follow; rewrite Eg; now left|unfold table_follow; rewrite Eg; discriminate].
      cbn [obind fst snd].
      assert (delimited g (PS (W ++ sq :: key ++ sq :: 58%N :: (w ++ fx ++ r ++ 125%N :: t)) None) = Ret (key, PS (58%N :: (w ++ fx ++ r ++ 125%N :: t)) None)) as ->.
      { assert (quote_context g [TripleQ; SingleQ]) as Q5 by (right; repeat split; cbn; tauto).
        rewrite <- (key_taken [TripleQ; SingleQ]); [|cbn; tauto|cbn; tauto].
        unfold delimited. rewrite (peek_fresh _ _ _ _ _ _ (key_scan [TripleQ; SingleQ] key (w ++ fx ++ r ++ 125%N :: t) W Q5 ltac:(cbn; intuition discriminate) Hk BW)).
        rewrite peek_pend by (discriminate || auto). reflexivity. }
      cbn [obind fst snd]. rewrite colon_taken. cbn [obind fst snd]. subst F'. rewrite (reads_fresh _ _ _ _ _ _ _ F1 Rx). reflexivity.
Qed.
Lemma dset_fresh k (v : value) d : ~ In k (map fst d) -> dset str_eqb k v d = d ++ [(k, v)].
Proof using.
  induction d as [|[k' v'] d IH]; intros H; [reflexivity|]. cbn [dset]. destruct (str_eqb_spec k k') as [->|E]; [contradiction H; now left|].
  cbn [app]. rewrite IH; [reflexivity|]. intros X. apply H. now right.
Qed.
Lemma pairs_dict_id l : forall d, NoDup (map fst (d ++ l)) -> pairs_dict l d = d ++ l.
Proof using.
  induction l as [|[k v] l IH]; intros d H; [now rewrite app_nil_r|]. cbn [pairs_dict].
  rewrite dset_fresh.
  - rewrite IH; rewrite <- app_assoc; [reflexivity|exact H].
  - rewrite map_app in H. cbn [map fst] in H. apply NoDup_remove_2 in H. intros X. apply H. apply in_or_app. now left.
Qed.
Lemma list_read_ok l : Forall read_ok l -> forall b req f w t v, v = VList l \/ v = VSL l -> prints g maxout req v f -> legible g maxout b req v ->
  blanks_only w -> (compound v = false -> closes g t) -> need v + 2 <= 2 * length f /\ reads g b (need v) (w ++ f ++ t) (canon v) t.
Proof using Hg.
  intros HF b req f w t v Hv P L Hw Ht.
  assert (exists body, f = u "[" ++ body ++ u "]" /\ prints_list g maxout true l body) as (body & -> & Pb) by (destruct Hv as [->| ->]; exact P).
  assert (Forall (legible g maxout false None) l) as HL by (destruct Hv as [->| ->]; inversion L; assumption).
  assert (need v = needs l) as En by (destruct Hv as [->| ->]; reflexivity).
  assert (canon v = VSL (map canon l)) as Ec by (destruct Hv as [->| ->]; reflexivity). rewrite En, Ec.
  destruct (list_read l HF HL true body t [] (needs l) Pb (le_n _)) as [Lb _].
  split. { rewrite !app_length. change (length (u "[")) with 1. change (length (u "]")) with 1. lia. }
  exists OSquare, [91%N], (body ++ 93%N :: t). split; [destruct Hg as [->| ->]; cbn; tauto|]. split; [|split].
  - intros restrict Hp. replace (w ++ (u "[" ++ body ++ u "]") ++ t) with (w ++ 91%N :: (body ++ 93%N :: t)) by (cbn; now rewrite <- !app_assoc).
    eapply open_scan; eauto.
  - cbn [length]. rewrite !app_length. cbn [length]. lia.
  - intros restrict fuel Hf Hr. cbn [value_go]. rewrite value_first_tokens. rewrite peek_value; [|destruct Hg as [->| ->]; cbn; tauto|exact Hr]. cbn [obind].
    assert (In OSquare restrict) as Hi by (apply Hr; destruct Hg as [->| ->]; cbn; tauto).
    rewrite take_pend; [|exact Hi|eapply in_nonempty; exact Hi]. cbn [obind fst snd].
    destruct (list_read l HF HL true body t [] fuel Pb Hf) as [_ Er]. cbn [negb] in Er. rewrite Er. cbn [obind fst snd]. rewrite app_nil_r, rev_involutive. reflexivity.
Qed.
Lemma table_read_ok d : Forall (fun kv => read_ok (snd kv)) d -> read_ok (VDict d).
Proof using Hg.
  intros HF b req f w t P L Hw Ht.
  assert (exists body, f = u "{" ++ body ++ u "}" /\ prints_table g maxout true d body) as (body & -> & Pb) by exact P.
  inversion L as [| | |? ? ? _ HN HL]; subst.
  change (need (VDict d)) with (needs_pairs d).
  destruct (table_read d HF HL true body t [] (needs_pairs d) (fun _ => eq_refl) Pb (le_n _)) as [Lb _].
  split. { rewrite !app_length. change (length (u "{")) with 1. change (length (u "}")) with 1. lia. }
  exists OCurl, [123%N], (body ++ 125%N :: t). split; [destruct Hg as [->| ->]; cbn; tauto|]. split; [|split].
  - intros restrict Hp. replace (w ++ (u "{" ++ body ++ u "}") ++ t) with (w ++ 123%N :: (body ++ 125%N :: t)) by (cbn; now rewrite <- !app_assoc).
    eapply open_scan; eauto.
  - cbn [length]. rewrite !app_length. cbn [length]. lia.
  - intros restrict fuel Hf Hr. cbn [value_go]. rewrite value_first_tokens. rewrite peek_value; [|destruct Hg as [->| ->]; cbn; tauto|exact Hr]. cbn [obind].
    assert (In OCurl restrict) as Hi by (apply Hr; destruct Hg as [->| ->]; cbn; tauto).
    rewrite take_pend; [|exact Hi|eapply in_nonempty; exact Hi]. cbn [obind fst snd].
    destruct (table_read d HF HL true body t [] fuel (fun _ => eq_refl) Pb Hf) as [_ Er]. cbn [negb] in Er. rewrite Er. cbn [obind fst snd]. rewrite app_nil_r, rev_involutive.
    rewrite pairs_dict_id; [reflexivity|]. cbn [app]. rewrite map_map. cbn [fst]. exact HN.
Qed.
End Values.

(** Every printed legible value is read back. *)
Fixpoint value_depth_ind (P : value -> Prop) (Hs : forall s, P (VStr s)) (Hn : forall p, P (VNum p)) (H0 : P VNone)
  (Hl : forall l, Forall P l -> P (VList l)) (Hsl : forall l, Forall P l -> P (VSL l)) (Hd : forall d, Forall (fun kv => P (snd kv)) d -> P (VDict d)) (v : value) : P v.
Proof.
  destruct v as [s|p| |l|l|d]; [apply Hs|apply Hn|apply H0|apply Hl|apply Hsl|apply Hd].
  - induction l; constructor; [apply value_depth_ind; assumption|assumption].
  - induction l; constructor; [apply value_depth_ind; assumption|assumption].
  - induction d; constructor; [apply value_depth_ind; assumption|assumption].
Defined.
Lemma value_read g maxout v : read_ok g maxout v.
Proof.
  induction v using value_depth_ind.
  - apply text_read.
  - intros b req f w t P. destruct P.
  - intros b req f w t P. destruct P.
  - intros b req f w t P L. assert (has_triples g) as Hg by now inversion L. revert P L. apply (list_read_ok g maxout Hg l H). now left.
  - intros b req f w t P L. assert (has_triples g) as Hg by now inversion L. revert P L. apply (list_read_ok g maxout Hg l H). now right.
  - intros b req f w t P L. assert (has_triples g) as Hg by now inversion L. revert P L. now apply table_read_ok.
Qed.
