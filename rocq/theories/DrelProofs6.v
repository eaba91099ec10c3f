(** Every expression is translated into a text that python reads as intended: the
    cases of the induction. *)
From Coq Require Import String Ascii List NArith PeanoNat Bool Lia.
From Verif Require Import PyBase PyFacts DrelModel DrelSpec DrelProofs DrelProofs2 DrelProofs3 DrelProofs4 DrelProofs5.
Import ListNotations.
Open Scope string_scope.
Open Scope list_scope.
Open Scope nat_scope.

Lemma G0 s t : Good 10 s t -> Good 0 s t. Proof. apply Good_down; lia. Qed.
Lemma length0 {A} (l : list A) : negb (Nat.eqb (length l) 0) = true -> l <> [].
Proof. destruct l; [discriminate|discriminate]. Qed.
Lemma ne_length {A B} (l : list A) (m : list B) : length m = length l -> l <> [] -> m <> [].
Proof. destruct l, m; try discriminate; try congruence. Qed.
Lemma concat_plain xs : concat (map (fun x : str => [] ++ x ++ u ",") xs) = concat (map (fun x => x ++ u ",") xs).
Proof. reflexivity. Qed.
Lemma call_not_name f l x : call_meaning f l <> PName x.
Proof.
  unfold call_meaning. destruct (dget str_eqb (lower f) simple_functions).
  - destruct (_ && _); discriminate.
  - destruct l as [|a [|b l]]; repeat match goal with |- (if ?b then _ else _) <> _ => destruct b end; discriminate.
Qed.
Lemma Starlist_good s l : GoodSeq s l -> Good 10 (u "StarList([" ++ s ++ u "])") (PCall (PName (u "StarList")) [PList l]).
Proof.
  intros S. pose proof (GoodA_call (u "StarList") (PName (u "StarList")) (u "(") (u "[" ++ s ++ u "]") [PList l] opening1) as X.
  apply GoodA_Good. change (u "StarList([" ++ s ++ u "])") with (u "StarList" ++ u "(" ++ u "[" ++ s ++ u "]" ++ u ")").
  rewrite <- !app_assoc in X. apply X; [apply Good_name; reflexivity|]. apply GoodSeq_one, G0, GoodA_Good, GoodA_list, S.
Qed.
Lemma squote_good s : attribute_name s = true -> Good 10 (squote s) (PStr (squote s)).
Proof.
  intros H. apply Good_str. unfold squote. unfold attribute_name in H. apply andb_true_iff in H as [N W].
  change (u "'") with [39%N]. cbn [app short_text]. rewrite removelast_last.
  assert (last (s ++ [39%N]) 0%N = 39%N) as -> by apply last_last.
  assert (match s ++ [39%N] with [] => true | _ => false end = false) as -> by (destruct s; reflexivity).
  cbn [N.eqb negb andb]. rewrite !andb_true_r. apply andb_true_iff. split; [reflexivity|].
  rewrite forallb_forall in *. intros c I. specialize (W c I). apply negb_true_iff.
  repeat (apply orb_false_iff; split); apply N.eqb_neq; intros ->; discriminate W.
Qed.
Lemma ident_sub x T l : Good 10 x (PSub T l) -> identifier x = true -> False.
Proof. intros G I. pose proof (Good_ident _ _ G I) as X. discriminate X. Qed.
Lemma Lo_op (o : N) : idle o = ([], LOp o) -> N.eqb o 33 = false -> Lo [o] [TOp [o]].
Proof.
  intros I N r R. destruct r as [|c r]; [destruct R|]. cbn [start] in R.
  change (lex LIdle ([o] ++ c :: r)) with (fst (idle o) ++ lex (snd (idle o)) (c :: r)). rewrite I. cbn [fst snd app].
  change (lex (LOp o) (c :: r)) with (fst (lstep (LOp o) c) ++ lex (snd (lstep (LOp o) c)) r). cbn [lstep].
  rewrite (twochar_start o c R), N. reflexivity.
Qed.
Lemma fix_good (f : string) (path : list string) x y a b : Good 10 (path_text (u f) path) (dotted f path) -> Good 0 x a -> Good 0 y b ->
  Good 10 (path_text (u f) path ++ u "(" ++ x ++ u "," ++ y ++ u ")") (PCall (dotted f path) [a; b]).
Proof.
  intros F A B. pose proof (GoodA_call _ _ (u "(") (x ++ u "," ++ y) [a; b] opening1 F) as X.
  rewrite <- !app_assoc in X. apply GoodA_Good, X. apply GoodSeq_cons; [exact A|apply GoodSeq_one, B].
Qed.
Lemma bin_good e ids op a b x y ta tb : operands op (level a) (level b) = true -> negb (str_eqb op (u "&") && top_or a) = true ->
  sentence e ids a = true -> sentence e ids b = true -> Good (pylev a) x ta -> Good (pylev b) y tb ->
  exists s, (forall st, mathop_text op x y st = Ret (s, st)) /\ Good (pylev (XBin op a b)) s (bin_meaning op ta tb) /\
    (s = x ++ skipn (length x) s \/ is_letter (hd 0%N s) = true).
Proof.
  intros O T Sa Sb Ga Gb. pose proof (operands_ops _ _ _ O) as I.
  destruct (level_pylev e ids a Sa) as (A1 & A2 & A4 & A5 & A6 & A8). destruct (level_pylev e ids b Sb) as (B1 & B2 & B4 & B5 & B6 & B8).
  pose proof (pylev_le a) as La. pose proof (pylev_le b) as Lb.
  pose proof (Good_0 _ _ _ Ga) as Za. pose proof (Good_0 _ _ _ Gb) as Zb.
  Local Ltac cut O := unfold operands in O; vm_compute stratum in O; cbv iota in O; apply andb_true_iff in O as [O1 O2]; apply Nat.leb_le in O1; first [apply Nat.ltb_lt in O2 | apply Nat.leb_le in O2].
  Local Ltac infix x y := eexists; split; [intros st; cbv [mathop_text]; vm_compute mathop; cbv iota; unfold tret, sapp; cbn [concat]; rewrite app_nil_r; reflexivity|];
    split; [|left; rewrite skipn_app, skipn_all, Nat.sub_diag; reflexivity].
  Local Ltac fixop f p Za Zb := eexists; split; [intros st; cbv [mathop_text]; vm_compute mathop; cbv iota; reflexivity|];
    split; [|right; reflexivity]; pose proof (fix_good f p _ _ _ _ ltac:(apply Good_path; reflexivity) Za Zb) as X; unfold sapp; cbn [concat]; rewrite app_nil_r; exact X.
  each_op I.
  - (* or *) cut O. infix x y. apply (Good_bin 0 (u "or") (TName (u "or"))); try lia; [reflexivity|intros r; reflexivity|intros r; reflexivity|exact Za|].
    apply (Good_down 1 (pylev b)); [lia|apply B1; lia|exact Gb].
  - cut O. infix x y. apply (Good_bin 1 (u "and") (TName (u "and"))); try lia; [reflexivity|intros r; reflexivity|intros r; reflexivity| |].
    + apply (Good_down 1 (pylev a)); [lia|apply A1; lia|exact Ga].
    + apply (Good_down 2 (pylev b)); [lia|apply B2; lia|exact Gb].
  - cut O. infix x y. apply (Good_cmp (u "<") [TOp (u "<")]); [reflexivity|discriminate|apply Lo_op; reflexivity|intros r _; reflexivity| |]; [apply (Good_down 4 (pylev a)); auto|apply (Good_down 4 (pylev b)); auto].
  - cut O. infix x y. apply (Good_cmp (u ">") [TOp (u ">")]); [reflexivity|discriminate|apply Lo_op; reflexivity|intros r _; reflexivity| |]; [apply (Good_down 4 (pylev a)); auto|apply (Good_down 4 (pylev b)); auto].
  - cut O. infix x y. apply (Good_cmp (u "<=") [TOp (u "<=")]); [reflexivity|discriminate|intros r _; reflexivity|intros r _; reflexivity| |]; [apply (Good_down 4 (pylev a)); auto|apply (Good_down 4 (pylev b)); auto].
  - cut O. infix x y. apply (Good_cmp (u ">=") [TOp (u ">=")]); [reflexivity|discriminate|intros r _; reflexivity|intros r _; reflexivity| |]; [apply (Good_down 4 (pylev a)); auto|apply (Good_down 4 (pylev b)); auto].
  - cut O. infix x y. apply (Good_cmp (u "==") [TOp (u "==")]); [reflexivity|discriminate|intros r _; reflexivity|intros r _; reflexivity| |]; [apply (Good_down 4 (pylev a)); auto|apply (Good_down 4 (pylev b)); auto].
  - cut O. infix x y. apply (Good_cmp (u "!=") [TOp (u "!=")]); [reflexivity|discriminate|intros r _; reflexivity|intros r _; reflexivity| |]; [apply (Good_down 4 (pylev a)); auto|apply (Good_down 4 (pylev b)); auto].
  - cut O. infix x y. apply (Good_cmp (u "in") [TName (u "in")]); [reflexivity|discriminate|intros r _; reflexivity|intros r _; reflexivity| |]; [apply (Good_down 4 (pylev a)); auto|apply (Good_down 4 (pylev b)); auto].
  - cut O. infix x y. apply (Good_cmp (u "not in") [TName (u "not"); TName (u "in")]); [reflexivity|discriminate|intros r _; reflexivity|intros r _; reflexivity| |]; [apply (Good_down 4 (pylev a)); auto|apply (Good_down 4 (pylev b)); auto].
  - fixop "drel_runtime" ["drel_add"] Za Zb.
  - fixop "numpy" ["subtract"] Za Zb.
  - fixop "drel_runtime" ["drel_dot"] Za Zb.
  - fixop "numpy" ["true_divide"] Za Zb.
  - fixop "numpy" ["cross"] Za Zb.
  - (* & *) cut O. infix x y. apply (Good_bin 5 (u "&") (TOp (u "&"))); try lia; [reflexivity|intros r; reflexivity|intros r; reflexivity| |].
    + apply (Good_down 5 (pylev a)); [lia| |exact Ga]. apply A5; [lia|]. destruct (top_or a); [discriminate T|reflexivity].
    + apply (Good_down 6 (pylev b)); [lia| |exact Gb]. specialize (B6 O2). lia.
  - (* | *) cut O. infix x y. apply (Good_bin 4 (u "|") (TOp (u "|"))); try lia; [reflexivity|intros r; reflexivity|intros r; reflexivity| |].
    + apply (Good_down 4 (pylev a)); [lia|apply A4; lia|exact Ga].
    + apply (Good_down 5 (pylev b)); [lia| |exact Gb]. specialize (B6 O2). lia.
  - (* ** *) cut O. infix x y. apply Good_power.
    + rewrite (A8 O1) in Ga. exact Ga.
    + apply (Good_down 8 (pylev b)); [lia|apply B6; exact O2|exact Gb].
Qed.

Lemma run_commas e l st xs st2 out : Run (traverse e) l st xs st2 ->
  commas (traverse e) [] out l st = Ret (out ++ concat (map (fun x => x ++ u ",") xs), st2).
Proof. intros F. exact (commas_run (traverse e) [] l st xs st2 F out). Qed.
Lemma group_text e l st : l <> [] -> traverse e (bx (XGroup l)) st = tbind (commas (traverse e) [] (u "(") (map (fun e => AExpr (bx e)) l)) (fun out => tret (drop_last out ++ u ")")) st.
Proof. destruct l; [congruence|reflexivity]. Qed.
Lemma call_text e f l st xs st2 : str_eqb f (u "Current_Row") = false -> Run (traverse e) l st xs st2 ->
  traverse e (ACall f l) st = Ret (Call f xs, st2).
Proof.
  intros N F. cbn [traverse]. rewrite N. cbv zeta. unfold tbind. rewrite (commas_run (traverse e) _ l st xs st2 F).
  unfold Call. rewrite (Run_len _ _ _ _ _ F). reflexivity.
Qed.
Lemma numbered_agree w : numbered w -> agrees (variable w) w.
Proof.
  intros [N _] n v k o I. unfold variable. assert (dget str_eqb n w = Some (v, k, o)) as ->; [|reflexivity].
  induction w as [|[n2 x] w IH]; [destruct I|]. cbn [map fst] in N. inversion N as [|? ? NI N2]; subst. cbn [dget].
  destruct I as [I|I].
  - injection I as -> ->. rewrite str_eqb_refl. reflexivity.
  - destruct (str_eqb_spec n n2) as [E|E]; [|destruct (str_eqb_spec n2 n) as [E2|E2]; [congruence|exact (IH N2 I)]].
    subst n2. exfalso. apply NI. apply in_map_iff. exists (n, (v, k, o)). split; [reflexivity|exact I].
Qed.
Lemma hd_untag s : hd 0%N s <> 95%N -> untag s. Proof. left. assumption. Qed.
Section Cases.
  Context (e : env) (ids : list (str * (str * str * bool))).
  Notation ok := (ok e ids). Notation sentence := (sentence e ids). Notation mean := (mean e ids). Notation names := (names e ids). Notation needs := (needs e ids).

  Lemma ok_name s : ok (XName s).
  Proof.
    intros S st I K R. cbn [DrelSpec.sentence] in S. cbn [bx traverse pylev DrelSpec.mean DrelSpec.names DrelSpec.needs].
    destruct (identifier_name s S) as [N KW].
    destruct (str_eqb_spec (lower s) (u "pi")) as [E|E1].
    { assert (str_eqb (lower s) (u "twopi") = false) as -> by (rewrite E; reflexivity).
      exists (u "math.pi"), st. split; [reflexivity|]. split; [apply grows_refl|]. split; [intros var _; path "math" ["pi"]|]. split; [left; discriminate|]. split; discriminate. }
    destruct (str_eqb_spec (lower s) (u "twopi")) as [E|E2].
    { exists (u "(2.0 * math.pi)"), st. split; [reflexivity|]. split; [apply grows_refl|]. split; [intros var _|split; [left; discriminate|split; discriminate]].
      change (u "(2.0 * math.pi)") with (u "(" ++ (u "2.0" ++ u " * " ++ u "math.pi") ++ u ")").
      apply GoodA_Good, GoodA_paren; [apply opening1|reflexivity|]. apply (Good_down 0 7); [lia|lia|].
      apply (Good_bin 7 (u "*") (TOp (u "*"))); [lia|lia|lia|reflexivity|intros r; reflexivity|intros r; reflexivity| |].
      - apply (Good_down 7 10); [lia|lia|]. apply Good_num; reflexivity.
      - apply (Good_down 8 10); [lia|lia|]. path "math" ["pi"]. }
    exists s, st. split; [reflexivity|]. split; [apply grows_refl|]. split; [intros var _; apply Good_name; assumption|]. pose proof (identifier_hd s S) as HS.
    split; [left; exact HS|]. split; [intros _; exact HS|]. intros _. left. reflexivity.
  Qed.
  Lemma ok_lit s : ok (XLit s).
  Proof.
    intros S st I K R. cbn [DrelSpec.sentence] in S. cbn [bx traverse pylev DrelSpec.mean DrelSpec.names DrelSpec.needs]. exists s, st. split; [reflexivity|]. split; [apply grows_refl|].
    unfold literal in S. apply orb_true_iff in S as [S|S].
    - destruct (number_start s S) as (A & B & C & D). split; [intros var _|split; [left; exact C|split; [intros _; exact C|intros X; congruence]]].
      destruct s as [|q r]; [destruct A|]. cbn [hd] in B. rewrite B. apply Good_num; assumption.
    - destruct (text_start s S) as [A B]. pose proof (Good_str s S) as G. destruct s as [|q r]; [destruct A|]. cbn [hd] in *. rewrite B. split; [intros var _; exact G|].
      assert (Q : q <> 95%N) by (intros ->; discriminate B). split; [left; exact Q|]. split; [intros _; exact Q|].
      intros X. pose proof (Good_ident _ _ G X) as Y. discriminate Y.
  Qed.
  Lemma ok_group l : Forall ok l -> ok (XGroup l).
  Proof.
    intros F S st I K R. cbn [DrelSpec.sentence] in S. apply andb_true_iff in S as [N S]. apply length0 in N.
    cbn [lists] in R. cbn [DrelSpec.names] in K.
    destruct (ok_list e ids l F S st I K R) as (xs & st2 & A & W & B & C). pose proof (ne_length l xs C N) as NX.
    exists (u "(" ++ joinc xs ++ u ")"), st2. split.
    { rewrite group_text by exact N. unfold tbind. rewrite (run_commas e _ _ xs _ _ A). unfold tret. rewrite drop_joined by exact NX. rewrite <- app_assoc. reflexivity. }
    split; [exact W|]. split; [|split; [left; discriminate|split; discriminate]]. intros var V. specialize (B var V). cbn [pylev].
    remember (map (mean var) l) as ms eqn:EM. destruct B as [|x t xs ts G B]; [congruence|]. destruct B as [|x2 t2 xs ts2 G2 B].
    - destruct l as [|c [|]]; try discriminate C. injection EM as ->. cbn [DrelSpec.mean].
      apply GoodA_Good, GoodA_paren; [apply opening1|reflexivity|]. exact G.
    - destruct l as [|c [|c2 l]]; try discriminate C. change (mean var (XGroup (c :: c2 :: l))) with (PTuple (map (mean var) (c :: c2 :: l))).
      rewrite <- EM, joinc_cons. apply GoodA_Good, GoodA_tuple; [exact G|]. apply (GoodSeq_join (x2 :: xs)). constructor; assumption.
  Qed.
  Lemma ok_call f l : Forall ok l -> ok (XCall f l).
  Proof.
    intros F S st I K R. cbn [DrelSpec.sentence] in S. apply andb_true_iff in S as [S S3]. apply andb_true_iff in S as [S1 S2].
    cbn [lists] in R. cbn [DrelSpec.names] in *. destruct (ok_list e ids l F S3 st I K R) as (xs & st2 & A & W & B & C). rewrite <- C in S2.
    pose proof (B (variable (s_with st2)) (numbered_agree _ (g_with _ _ _ W (c_with _ _ _ K)))) as B0.
    destruct (all_calls f xs _ S1 S2 B0) as [G0 H].
    exists (Call f xs), st2. split.
    { apply call_text; [|exact A]. destruct (str_eqb_spec f (u "Current_Row")) as [->|]; [discriminate S2|reflexivity]. }
    cbn [pylev DrelSpec.mean]. split; [exact W|]. split; [intros var V; apply (all_calls f xs _ S1 S2 (B var V))|]. split; [left; exact H|]. split; [intros _; exact H|].
    intros X. exfalso. exact (call_not_name _ _ _ (Good_ident _ _ G0 X)).
  Qed.
  Lemma ok_conv l : Forall ok l -> ok (XConv l).
  Proof.
    intros F S st I K R. cbn [DrelSpec.sentence] in S. apply andb_true_iff in S as [_ S3].
    cbn [lists] in R. cbn [DrelSpec.names] in *. destruct (ok_list e ids l F S3 st I K R) as (xs & st2 & A & W & B & C).
    pose proof (B (variable (s_with st2)) (numbered_agree _ (g_with _ _ _ W (c_with _ _ _ K)))) as B0.
    destruct (all_calls (u "str") xs _ eq_refl eq_refl B0) as [G0 H].
    exists (Call (u "str") xs), st2. split; [apply (call_text e (u "str") _ st xs st2 eq_refl A)|].
    cbn [pylev DrelSpec.mean]. split; [exact W|]. split; [intros var V; apply (all_calls (u "str") xs _ eq_refl eq_refl (B var V))|]. split; [left; exact H|]. split; [intros _; exact H|].
    intros X. exfalso. exact (call_not_name _ _ _ (Good_ident _ _ G0 X)).
  Qed.
  Lemma ok_list_lit l : Forall ok l -> ok (XList l).
  Proof.
    intros F S st I K R. cbn [DrelSpec.sentence] in S. cbn [DrelSpec.names] in K.
    destruct l as [|c l].
    { exists (u "StarList([])"), st. split; [reflexivity|]. split; [apply grows_refl|]. split; [intros var _|split; [left; discriminate|split; discriminate]]. exact (Starlist_good [] [] GoodSeq_nil). }
    assert (R2 : s_rhs st = Some true) by (destruct R as [R|R]; [exact R|discriminate R]).
    destruct (ok_list e ids (c :: l) F S st I K (or_introl R2)) as (xs & st2 & A & W & B & C). pose proof (ne_length _ _ C ltac:(discriminate)) as NX.
    exists (u "StarList([" ++ joinc xs ++ u "])"), st2. split.
    { change (tbind (commas (traverse e) [] (list_open st) (map (fun e => AExpr (bx e)) (c :: l))) (fun out st1 => Ret (list_close st1 out, st1)) st = Ret (u "StarList([" ++ joinc xs ++ u "])", st2)).
      unfold tbind. rewrite (run_commas e _ _ xs _ _ A). unfold list_close, list_open. rewrite (g_rhs _ _ _ W), R2. cbn [is_true]. rewrite drop_joined by exact NX. rewrite <- app_assoc. reflexivity. }
    cbn [pylev]. split; [exact W|]. split; [|split; [left; discriminate|split; discriminate]]. intros var V. apply (Starlist_good (joinc xs) (map (mean var) (c :: l))). apply GoodSeq_join, B, V.
  Qed.
  Lemma table_entries l : Forall (fun ke => ok (snd ke)) l -> forallb (fun ke => short_text (fst ke) && sentence (snd ke)) l = true ->
    forall st, s_ids st = ids -> calm e st (flat_map (fun ke => names (snd ke)) l) -> (s_rhs st = Some true \/ existsb (fun ke => lists (snd ke)) l = false) ->
    exists xs st2, Run (fun ke => tbind (traverse e (snd ke)) (fun t => tret (sapp [fst ke; u ":"; t]))) (map (fun ke => (fst ke, AExpr (bx (snd ke)))) l) st xs st2
      /\ grows st st2 (flat_map (fun ke => needs (snd ke)) l)
      /\ forall var, agrees var (s_with st2) -> Forall2 GoodPair xs (map (fun ke => (PStr (fst ke), mean var (snd ke))) l).
  Proof.
    induction 1 as [|[k c] l H F IH]; intros S st I K R; [exists [], st; split; [constructor|split; [apply grows_refl|constructor]]|].
    cbn [forallb flat_map existsb fst snd] in *. apply andb_true_iff in S as [S1 S2]. apply andb_true_iff in S1 as [S0 S1]. apply sub_calm in K as [K1 K2]. apply sub_lists in R as [R1 R2].
    destruct (H S1 st I K1 R1) as (x & st1 & E & W & G & _).
    destruct (IH S2 st1) as (xs & st2 & A & W2 & B).
    { rewrite (g_ids _ _ _ W). exact I. } { exact (calm_grows _ _ _ _ _ K2 W). } { exact (rhs_grows _ _ _ _ W R2). }
    exists ((k ++ u ":" ++ x) :: xs), st2. split; [|split; [exact (grows_trans _ _ _ _ _ W W2)|intros var V]]; cbn [map fst snd].
    - econstructor; [|exact A]. cbn [fst snd traverse]. unfold tbind. rewrite E. unfold tret, sapp. cbn [concat]. rewrite app_nil_r. reflexivity.
    - constructor; [|exact (B var V)]. exists k, x. cbn [fst snd]. split; [reflexivity|]. split; [apply G0, Good_str, S0|apply (Good_0 c), G, (agrees_grows _ _ _ _ W2 V)].
  Qed.
  Lemma ok_table l : Forall (fun ke => ok (snd ke)) l -> ok (XTable l).
  Proof.
    intros F S st I K R. cbn [DrelSpec.sentence] in S. cbn [DrelSpec.names] in K. cbn [lists] in R.
    destruct l as [|c l].
    { exists (u "StarTable({})"), st. split; [reflexivity|]. split; [apply grows_refl|]. split; [|split; [left; discriminate|split; discriminate]]. intros var _. cbn [pylev DrelSpec.mean].
      change (u "StarTable({})") with (u "StarTable" ++ u "(" ++ u "{}" ++ u ")").
      apply GoodA_Good, GoodA_call; [apply opening1|apply Good_name; reflexivity|]. apply GoodSeq_one, G0.
      exact (GoodA_Good _ _ (GoodA_dict [] [] (Forall2_nil _))). }
    destruct (table_entries (c :: l) F S st I K R) as (xs & st2 & A & W & B).
    assert (NX : xs <> []) by (destruct xs; [inversion A|discriminate]).
    exists (u "{" ++ joinc xs ++ u "}"), st2. split.
    { change (tbind (commas (fun ke => tbind (traverse e (snd ke)) (fun t => tret (sapp [fst ke; u ":"; t]))) [] (u "{") (map (fun ke => (fst ke, AExpr (bx (snd ke)))) (c :: l)))
                          (fun out => tret (drop_last out ++ u "}")) st = Ret (u "{" ++ joinc xs ++ u "}", st2)).
      unfold tbind at 1. rewrite (commas_run _ [] _ _ xs _ A). unfold tret. rewrite concat_plain, drop_joined by exact NX. rewrite <- app_assoc. reflexivity. }
    cbn [pylev]. split; [exact W|]. split; [|split; [left; discriminate|split; discriminate]]. intros var V. pose proof (GoodA_Good _ _ (GoodA_dict _ _ (B var V))) as G.
    assert (mean var (XTable (c :: l)) = PDict (flat_map (fun ab => [fst ab; snd ab]) (map (fun ke => (PStr (fst ke), mean var (snd ke))) (c :: l)))) as ->; [|exact G].
    change (mean var (XTable (c :: l))) with (PDict (flat_map (fun ke => [PStr (fst ke); mean var (snd ke)]) (c :: l))). f_equal.
    generalize (c :: l) as m. clear. induction m as [|a m IH]; [reflexivity|]. cbn [map flat_map fst snd]. rewrite IH. reflexivity.
  Qed.

  (** Primaries *)
  Lemma primary p : sentence p = true -> Nat.leb 8 (level p) = true -> pylev p = 10.
  Proof. intros S L. apply (level_pylev e ids p S). apply Nat.leb_le, L. Qed.
  Lemma not_tag p : sentence p = true -> is_tag (bx p) = None.
  Proof. destruct p; try reflexivity; try discriminate. destruct l; reflexivity. Qed.
  Lemma step st st1 d used : s_ids st = ids -> grows st st1 d -> calm e st used -> s_ids st1 = ids /\ calm e st1 used.
  Proof. intros I W K. split; [rewrite (g_ids _ _ _ W); exact I|exact (calm_grows _ _ _ _ _ K W)]. Qed.
  (** Data items *)
  Lemma head_text p a : head_name p = Some a -> (forall st, traverse e (bx p) st = Ret (a, st)) /\ is_atom (bx p) = true.
  Proof.
    destruct p; try discriminate; cbn [head_name].
    - destruct (constant s) eqn:C; [discriminate|]. intros X. injection X as ->. split; [|reflexivity]. intros st. cbn [bx traverse].
      unfold constant in C. apply orb_false_iff in C as [C1 C2]. rewrite C1, C2. reflexivity.
    - intros X. injection X as ->. split; reflexivity.
  Qed.
  Lemma grows_depend x st : grows st (depend x st) [(x, false)].
  Proof.
    constructor; try reflexivity; [| | |auto]; cbn [depend set_deps s_deps s_with map fst].
    - intros y. unfold sadd. destruct (existsb (str_eqb x) (s_deps st)) eqn:E.
      + apply existsb_In in E. cbn [In]. split; [tauto|]. intros [H|[<-|[]]]; assumption.
      + rewrite in_app_iff. tauto.
    - auto.
    - intros n. cbn [In]. split; [tauto|]. intros [H|[H|[]]]; [exact H|discriminate H].
  Qed.
  Lemma grows_have st : grows st (set_have st) [].
  Proof. constructor; try reflexivity; [| | |auto]; cbn; intros; tauto. Qed.
  Lemma grows_fold l st : grows st (fold_left (fun s k => depend k s) l st) (map (fun k => (k, false)) l).
  Proof.
    revert st. induction l as [|x l IH]; intros st; [apply grows_refl|]. cbn [fold_left map].
    exact (grows_trans _ _ _ [_] _ (grows_depend x st) (IH _)).
  Qed.
  Lemma nth_snoc {A} (l : list A) x i y : nth_error (l ++ [x]) i = Some y -> nth_error l i = Some y \/ (i = length l /\ y = x).
  Proof.
    intros H. destruct (Nat.lt_ge_cases i (length l)) as [L|L].
    - rewrite nth_error_app1 in H by exact L. auto.
    - rewrite nth_error_app2 in H by exact L. destruct (i - length l) as [|k] eqn:E; [|destruct k; discriminate H].
      injection H as <-. right. split; [lia|reflexivity].
  Qed.
  Lemma dget_In {V} k (d : list (str * V)) v : dget str_eqb k d = Some v -> In (k, v) d.
  Proof.
    induction d as [|[k2 v2] d IH]; [discriminate|]. cbn [dget]. destruct (str_eqb_spec k k2) as [E|N].
    - subst k2. intros X. injection X as ->. left. reflexivity.
    - intros X. right. auto.
  Qed.
  Lemma dget_keys {V} k (d : list (str * V)) : dget str_eqb k d = None -> ~ In k (map fst d).
  Proof.
    induction d as [|[k2 v2] d IH]; [intros _ []|]. cbn [dget map fst]. destruct (str_eqb_spec k k2) as [E|N]; [discriminate|].
    intros X [H|H]; [congruence|exact (IH X H)].
  Qed.
  Lemma use_with_ok name st v st1 : numbered (s_with st) -> use_with name st = (v, st1) ->
    grows st (depend name st1) [(name, true)] /\ exists k o, In (name, (v, k, o)) (s_with (depend name st1)) /\ v = u "__w" ++ dec k.
  Proof.
    intros N. unfold use_with. destruct (dget str_eqb name (s_with st)) as [[[v0 k0] o0]|] eqn:D; intros X.
    - injection X as <- <-. apply dget_In in D. split.
      + destruct (grows_depend name st) as [A1 A2 A3 A4 A5 A6 A7 A8 A9 A10]. constructor; try assumption.
        intros n. rewrite A9. cbn [In]. split; [intros [H|[H|[]]]; [auto|discriminate H]|]. intros [H|[H|[]]]; [auto|]. injection H as <-.
        left. apply in_map_iff. exists (name, (v0, k0, o0)). auto.
      + exists k0, o0. split; [exact D|]. destruct (In_nth_error _ _ D) as [i E]. destruct N as [_ N]. destruct (N _ _ _ _ _ E) as [-> ->]. reflexivity.
    - injection X as <- <-. pose proof (dget_keys _ _ D) as NI. split.
      + set (st1 := set_with _ st).
        destruct (grows_depend name st1) as [A1 A2 A3 A4 A5 A6 A7 A8 A9 A10]. constructor; try assumption.
        * intros n w I. apply A8. cbn [st1 set_with s_with]. apply in_or_app. auto.
        * intros n. rewrite A9. cbn [st1 set_with s_with]. rewrite map_app, in_app_iff. cbn [map fst In]. split.
          -- intros [[H|[H|[]]]|[H|[]]]; [auto| |discriminate H]. subst n. auto.
          -- intros [H|[H|[]]]; [auto|]. injection H as <-. auto.
        * intros _. cbn [depend set_deps set_with s_with st1]. destruct N as [N1 N2]. split.
          -- rewrite map_app. cbn [map fst]. apply NoDup_app_iff. split; [exact N1|]. split; [repeat constructor; intros []|]. intros x H [<-|[]]. exact (NI H).
          -- intros i n w k o E. apply nth_snoc in E as [E|[-> E]]; [exact (N2 _ _ _ _ _ E)|]. injection E as -> -> -> ->. auto.
      + exists (length (s_with st)), (s_inif st). split; [|reflexivity]. cbn [depend set_deps set_with s_with]. apply in_or_app. right. left. reflexivity.
  Qed.
  Lemma quoted_good (q : N) name : q = 39%N \/ q = 34%N -> quotable name = true -> Good 10 ([q] ++ name ++ [q]) (PStr ([q] ++ name ++ [q])).
  Proof.
    intros Q H. apply Good_str. cbn [app short_text]. rewrite removelast_last.
    assert (last (name ++ [q]) 0%N = q) as -> by apply last_last.
    assert (match name ++ [q] with [] => true | _ => false end = false) as -> by (destruct name; reflexivity).
    rewrite N.eqb_refl. cbn [negb]. rewrite !andb_true_r. apply andb_true_iff. split; [destruct Q as [->| ->]; reflexivity|].
    unfold quotable in H. rewrite forallb_forall in *. intros c I. specialize (H c I). apply negb_true_iff in H. apply negb_true_iff.
    apply orb_false_iff in H as [H H4]. apply orb_false_iff in H as [H H3]. apply orb_false_iff in H as [H1 H2].
    destruct Q as [->| ->]; rewrite ?H1, ?H2, H3, H4; reflexivity.
  Qed.
  Lemma file_good (q : N) name : q = 39%N \/ q = 34%N -> quotable name = true ->
    Good 10 (u "ciffile" ++ u "[" ++ ([q] ++ name ++ [q]) ++ u "]") (PSub (PName (u "ciffile")) [PStr ([q] ++ name ++ [q])]).
  Proof.
    intros Q H. apply Good_sub; [discriminate|apply Good_name; reflexivity|].
    apply (GoodItems_join [[q] ++ name ++ [q]]); [discriminate|]. constructor; [|constructor]. apply GoodItem_expr, G0, quoted_good; assumption.
  Qed.
  Lemma py_name_good s : py_name s = true -> Good 10 s (PName s).
  Proof.
    destruct s as [|c r]; [discriminate|]. cbn [py_name]. intros H. apply andb_true_iff in H as [H K]. apply negb_true_iff in K.
    apply Good_name; [cbn [name_text]|exact K]. exact H.
  Qed.
  Lemma dec_word n : forallb is_word (dec n) = true.
  Proof.
    unfold dec. generalize (Nat.to_uint n) as d. induction d; cbn [DecimalString.NilEmpty.string_of_uint u forallb]; [reflexivity|..]; cbn [is_word]; try (rewrite IHd); reflexivity.
  Qed.
  Lemma w_name n : py_name (u "__w" ++ dec n) = true.
  Proof.
    change (u "__w" ++ dec n) with (95%N :: 95%N :: 119%N :: dec n). cbn [py_name forallb]. rewrite dec_word. reflexivity.
  Qed.
  Lemma eqb_swap a b : str_eqb a b = str_eqb b a.
  Proof. destruct (str_eqb_spec a b), (str_eqb_spec b a); congruence. Qed.
  Lemma item_run p att name r st : item_of e ids p att = Some (name, r) -> reachable e (name, r) = true -> s_ids st = ids -> numbered (s_with st) ->
    exists s st2, traverse e (bx (XAttr p att)) st = Ret (s, st2) /\ grows st st2 (use_of (name, r))
      /\ (forall var, agrees var (s_with st2) -> Good 10 s (value var name r)) /\ untag s /\ identifier s = false.
  Proof.
    intros It Re Ii Nw. unfold reachable in Re. destruct (e_target e) as [t|] eqn:Et; [|discriminate Re]. cbn [fst snd] in Re. apply andb_true_iff in Re as [Qn Ri].
    unfold item_of in It. destruct (head_name p) as [a|] eqn:Hn; [|discriminate It].
    destruct (head_text p a Hn) as [Tx At].
    assert (Ta : target e = Ret (lower t)) by (unfold target; rewrite Et; reflexivity). rewrite Et in It.
    assert (Tg : exists s st2, Ret (u "__dreltarget", set_have st) = Ret (s, st2) /\ grows st st2 (use_of (name, Target))
      /\ (forall var, agrees var (s_with st2) -> Good 10 s (value var name Target)) /\ untag s /\ identifier s = false).
    { exists (u "__dreltarget"), (set_have st). split; [reflexivity|]. split; [apply grows_have|]. split; [intros var _; apply py_name_good; reflexivity|].
      split; [right; eexists; reflexivity|reflexivity]. }
    assert (Wh : forall q, q = 39%N \/ q = 34%N -> exists s st2, Ret (data_access ([q] ++ name ++ [q]), depend name st) = Ret (s, st2) /\ grows st st2 [(name, false)]
      /\ (forall var, agrees var (s_with st2) -> Good 10 s (value var name (Whole q))) /\ untag s /\ identifier s = false).
    { intros q Q. pose proof (file_good q name Q Qn) as G. eexists _, _. split; [reflexivity|]. split; [apply grows_depend|].
      assert (E : data_access ([q] ++ name ++ [q]) = u "ciffile" ++ u "[" ++ ([q] ++ name ++ [q]) ++ u "]").
      { unfold data_access, sapp. cbn [concat]. rewrite app_nil_r. reflexivity. }
      rewrite E. split; [intros var _; exact G|]. split; [left; discriminate|].
      destruct (identifier _) eqn:X; [|reflexivity]. destruct (ident_sub _ _ _ G X). }
    cbn [bx traverse]. unfold tbind. rewrite Tx, At. unfold attribute. rewrite Ii, Ta. cbn [obind].
    destruct (dget str_eqb a ids) as [[[cat index] looping]|] eqn:D.
    - destruct (e_name e (lower cat) (lower att)) as [nm|x]; [|discriminate It]. cbn [obind].
      injection It as <- It. destruct (str_eqb (lower nm) (lower t)) eqn:Eq.
      { subst r. exact Tg. }
      destruct index as [|i0 index].
      { subst r. rewrite orb_true_r. cbv zeta. exact (Wh 34%N (or_intror eq_refl)). }
      destruct looping.
      + subst r. cbn [orb]. cbv zeta. cbn [use_of snd fst]. pose proof (file_good 34%N (lower nm) (or_intror eq_refl) Qn) as G.
        assert (E : data_access (dquote (lower nm)) = u "ciffile" ++ u "[" ++ ([34%N] ++ lower nm ++ [34%N]) ++ u "]").
        { unfold data_access, sapp, dquote. cbn [concat]. rewrite app_nil_r. reflexivity. }
        rewrite E. clear E. set (x := u "ciffile" ++ u "[" ++ ([34%N] ++ lower nm ++ [34%N]) ++ u "]") in *.
        assert (Q : Good 10 (x ++ u "[" ++ (i0 :: index) ++ u "]") (PSub (PSub (PName (u "ciffile")) [PStr (dquote (lower nm))]) [PName (i0 :: index)])).
        { apply Good_sub; [discriminate|exact G|]. apply (GoodItems_join [i0 :: index]); [discriminate|]. constructor; [|constructor]. apply GoodItem_expr, G0, py_name_good, Ri. }
        eexists _, _. split; [reflexivity|]. split; [apply grows_depend|]. unfold sapp. cbn [concat]. rewrite app_nil_r.
        split; [intros var _; exact Q|]. split; [left; discriminate|]. destruct (identifier _) eqn:X; [|reflexivity]. destruct (ident_sub _ _ _ Q X).
      + subst r. cbn [orb]. destruct (use_with (lower nm) st) as [v st1] eqn:Uw. destruct (use_with_ok _ _ _ _ Nw Uw) as (W & k & o & I & Ev).
        eexists _, _. split; [reflexivity|]. split; [exact W|]. split.
        { intros var V. cbn [value]. rewrite (V _ _ _ _ I). apply py_name_good. rewrite Ev. apply w_name. }
        rewrite Ev. split; [right; eexists; reflexivity|reflexivity].
    - destruct p; try discriminate It. destruct (N.eqb (hd 0%N a) 95) eqn:H95; [|discriminate It].
      cbn [head_name] in Hn. injection Hn as ->. destruct (e_name e a att) as [nm|x] eqn:En; [|discriminate It]. injection It as <- It.
      destruct a as [|c a]; [discriminate H95|]. cbn [hd] in H95. rewrite H95. cbn [obind].
      rewrite (eqb_swap (lower t)). destruct (str_eqb (lower nm) (lower t)).
      + subst r. exact Tg.
      + subst r. exact (Wh 39%N (or_introl eq_refl)).
  Qed.
  Lemma packet_run q key cat st : category_of e ids q = Some cat -> dmem str_eqb cat (e_loopable e) = true -> ok key -> sentence key = true ->
    s_ids st = ids -> calm e st (names key) -> (s_rhs st = Some true \/ lists key = false) ->
    exists x st1, traverse e (bx (XSub q key)) st = Ret (semantic_packet x (squote cat), set_sub cat st1)
      /\ grows st st1 (map (fun k => (k, false)) (keys_of e cat) ++ needs key) /\ (forall var, agrees var (s_with st1) -> Good 0 x (mean var key)).
  Proof.
    intros Ca Lo Ok Se Ii Ka Rh. unfold category_of in Ca. destruct (head_name q) as [a|] eqn:Hn; [|discriminate Ca].
    destruct (head_text q a Hn) as [Tx _].
    assert (Ky : exists x st1, keyed e cat (traverse e (AExpr (bx key))) st = Ret (semantic_packet x (squote cat), set_sub cat st1)
      /\ grows st st1 (map (fun k => (k, false)) (keys_of e cat) ++ needs key) /\ (forall var, agrees var (s_with st1) -> Good 0 x (mean var key))).
    { unfold keyed. unfold keys_of. unfold dmem in Lo. destruct (dget str_eqb cat (e_loopable e)) as [keys|]; [|discriminate Lo].
      assert (EK : map (fun s => lower (sapp [u "_"; cat; u "."; s])) keys = map (fun k => lower (u "_" ++ cat ++ u "." ++ k)) keys).
      { apply map_ext. intros k. unfold sapp. cbn [concat]. rewrite app_nil_r. reflexivity. }
      cbv zeta. rewrite EK. set (l := map (fun k => lower (u "_" ++ cat ++ u "." ++ k)) keys). pose proof (grows_fold l st) as W. set (st0 := fold_left _ l st) in *.
      destruct (step _ _ _ _ Ii W Ka) as [I0 K0].
      destruct (Ok Se st0 I0 K0 (rhs_grows _ _ _ _ W Rh)) as (x & st1 & E & W2 & G & _).
      exists x, st1. split; [cbn [traverse]; unfold tbind, tmod, tret; rewrite E; reflexivity|]. split; [exact (grows_trans _ _ _ _ _ W W2)|].
      intros var V. apply (Good_0 key), G, V. }
    cbn [bx traverse]. destruct q; try discriminate Hn.
    - cbn [bx is_tag]. unfold tbind at 1. rewrite Tx. unfold find_id. rewrite Ii. destruct (dget str_eqb a ids) as [[[c i] lp]|].
      + injection Ca as ->. exact Ky.
      + destruct (dmem str_eqb a (e_loopable e)); [|discriminate Ca]. injection Ca as ->. exact Ky.
    - cbn [bx is_tag]. cbn [head_name] in Hn. injection Hn as ->. injection Ca as ->. exact Ky.
  Qed.
  Lemma packet_text x cat T : Good 0 x T -> quotable cat = true -> Good 10 (semantic_packet x (squote cat)) (packet cat T).
  Proof.
    intros G Q. assert (S : GoodSeq (x ++ u "," ++ squote cat) [T; PStr (squote cat)]).
    { apply GoodSeq_cons; [exact G|]. apply GoodSeq_one, G0. exact (quoted_good 39%N cat (or_introl eq_refl) Q). }
    assert (F : Good 10 (u "ciffile.GetKeyedSemanticPacket") (dotted "ciffile" ["GetKeyedSemanticPacket"])) by path "ciffile" ["GetKeyedSemanticPacket"].
    pose proof (GoodA_Good _ _ (GoodA_call _ _ (u "(") _ _ opening1 F S)) as X. unfold semantic_packet, sapp. cbn [concat]. rewrite app_nil_r.
    rewrite <- !app_assoc in X. exact X.
  Qed.
  Lemma getattr_text x nm T : Good 0 x T -> quotable nm = true ->
    Good 10 (sapp [u "getattr("; x; u ",'"; nm; u "')"]) (PCall (PName (u "getattr")) [T; PStr (squote nm)]).
  Proof.
    intros G Q. assert (S : GoodSeq (x ++ u "," ++ squote nm) [T; PStr (squote nm)]).
    { apply GoodSeq_cons; [exact G|]. apply GoodSeq_one, G0. exact (quoted_good 39%N nm (or_introl eq_refl) Q). }
    pose proof (GoodA_call (u "getattr") _ (u "(") _ _ opening1 (Good_name (u "getattr") eq_refl eq_refl) S) as X.
    unfold squote in X at 1. rewrite <- !app_assoc in X. unfold sapp. cbn [concat]. rewrite app_nil_r. apply GoodA_Good, X.
  Qed.
  Lemma word_quotable s : attribute_name s = true -> quotable s = true.
  Proof.
    unfold attribute_name, quotable. intros H. apply andb_true_iff in H as [_ H]. rewrite forallb_forall in *. intros c I. specialize (H c I).
    apply negb_true_iff. repeat (apply orb_false_iff; split); apply N.eqb_neq; intros ->; discriminate H.
  Qed.
  (* attribute of something which is not an item *)
  Lemma plain_attr p s : ok p -> Nat.leb 8 (level p) && attribute_name s && sentence p = true -> forall st, s_ids st = ids -> calm e st (names p) ->
    (s_rhs st = Some true \/ lists p = false) ->
    exists x st2, traverse e (bx (XAttr p s)) st = Ret (x, st2) /\ grows st st2 (needs p)
      /\ (forall var, agrees var (s_with st2) -> Good 10 x (PCall (PName (u "getattr")) [mean var p; PStr (squote s)])) /\ untag x /\ identifier x = false.
  Proof.
    intros H S st I K R. apply andb_true_iff in S as [S S3]. apply andb_true_iff in S as [S1 S2].
    destruct (H S3 st I K R) as (x & st2 & E & W & G & UN & AT & ID). pose proof (primary p S3 S1) as PL. rewrite PL in G.
    destruct (step _ _ _ _ I W K) as [I2 K2].
    pose proof (G _ (numbered_agree _ (c_with _ _ _ K2))) as G1.
    exists (sapp [u "getattr("; x; u ",'"; s; u "')"]), st2. split.
    { cbn [bx traverse]. unfold tbind. rewrite E. unfold attribute.
      rewrite (calm_ids e st2 _ x K2 UN ID), (calm_packet e st2 _ x K2 ID), (c_sub _ _ _ K2).
      assert (N : (if is_atom (bx p) then match x with [] => Raise IndexErr | c :: _ => Ret (N.eqb c 95) end else Ret false) = Ret false).
      { destruct (is_atom (bx p)); [|reflexivity]. specialize (AT eq_refl). pose proof (Good_start _ _ _ G1) as SX. destruct x as [|c x]; [destruct SX|]. cbn [hd] in AT. apply N.eqb_neq in AT. rewrite AT. reflexivity. }
      rewrite N. cbn [obind fst snd]. rewrite (set_sub_same st2 (c_sub _ _ _ K2)). reflexivity. }
    split; [exact W|]. split; [intros var V; apply getattr_text; [apply G0, G, V|apply word_quotable, S2]|]. split; [left; discriminate|reflexivity].
  Qed.
  Lemma keyed_attr q key cat s : category_of e ids q = Some cat -> ok key ->
    nonempty cat && quotable cat && dmem str_eqb cat (e_loopable e) && resolves e cat s && quotable (known e cat s) && sentence key = true ->
    forall st, s_ids st = ids -> calm e st (names key) -> (s_rhs st = Some true \/ lists key = false) ->
    exists x st2, traverse e (bx (XAttr (XSub q key) s)) st = Ret (x, st2) /\ grows st st2 (map (fun k => (k, false)) (keys_of e cat) ++ needs key ++ [(known e cat s, false)])
      /\ (forall var, agrees var (s_with st2) -> Good 10 x (PCall (PName (u "getattr")) [packet cat (mean var key); PStr (squote (known e cat s))]))
      /\ untag x /\ identifier x = false.
  Proof.
    intros Ca Ok S st I K R. apply andb_true_iff in S as [S S6]. apply andb_true_iff in S as [S S5]. apply andb_true_iff in S as [S S4].
    apply andb_true_iff in S as [S S3]. apply andb_true_iff in S as [S1 S2].
    destruct (packet_run q key cat st Ca S3 Ok S6 I K R) as (x & st1 & E & W & G). destruct (step _ _ _ _ I W K) as [I1 K1].
    unfold resolves in S4. unfold known in *. destruct (e_name e cat s) as [nm|] eqn:En; [|discriminate S4].
    set (t := semantic_packet x (squote cat)) in *.
    assert (NI : identifier t = false).
    { pose proof (packet_text x cat _ (G _ (numbered_agree _ (c_with _ _ _ K1))) S2) as Gt. destruct (identifier t) eqn:X; [|reflexivity].
      pose proof (Good_ident _ _ Gt X) as Y. discriminate Y. }
    assert (NI2 : identifier t = true -> In t (names key)) by (rewrite NI; discriminate).
    assert (D1 : dget str_eqb t (s_ids st1) = None) by (apply (calm_ids e st1 _ t K1); [left; discriminate|exact NI2]).
    assert (D2 : dget str_eqb t (s_packets st1) = None) by (apply (calm_packet e st1 _ t K1 NI2)).
    exists (sapp [u "getattr("; t; u ",'"; nm; u "')"]), (set_sub [] (depend nm (set_sub cat st1))). split.
    { change (tbind (traverse e (bx (XSub q key))) (fun primary => attribute e (is_atom (bx (XSub q key))) primary s) st = Ret (sapp [u "getattr("; t; u ",'"; nm; u "')"], set_sub [] (depend nm (set_sub cat st1)))).
      unfold tbind. rewrite E. cbn [bx is_atom]. unfold attribute. change (s_ids (set_sub cat st1)) with (s_ids st1). rewrite D1.
      change (s_packets (set_sub cat st1)) with (s_packets st1). rewrite D2. change (s_sub (set_sub cat st1)) with cat.
      destruct cat as [|c0 cat]; [discriminate S1|]. rewrite En. reflexivity. }
    split.
    { rewrite app_assoc. apply (grows_trans _ _ _ _ _ W). destruct (grows_depend nm st1) as [A1 A2 A3 A4 A5 A6 A7 A8 A9 A10].
      constructor; try assumption. cbn. symmetry. exact (c_sub _ _ _ K1). }
    split; [intros var V; apply getattr_text; [apply G0, packet_text; [apply G, V|exact S2]|exact S5]|]. split; [left; discriminate|reflexivity].
  Qed.
  Lemma ok_attr p s : ok p -> (forall q key, p = XSub q key -> ok key) -> ok (XAttr p s).
  Proof.
    intros H H2 S st I K R.
    assert (X : exists x st2, traverse e (bx (XAttr p s)) st = Ret (x, st2) /\ grows st st2 (needs (XAttr p s))
      /\ (forall var, agrees var (s_with st2) -> Good 10 x (mean var (XAttr p s))) /\ untag x /\ identifier x = false).
    { cbn [DrelSpec.sentence DrelSpec.names DrelSpec.needs] in S, K |- *.
      assert (M : forall var, mean var (XAttr p s) = match item_of e ids p s with
        | Some (name, r) => value var name r
        | None => match p with XSub q key => match category_of e ids q with Some cat => PCall (PName (u "getattr")) [packet cat (mean var key); PStr (squote (known e cat s))]
            | None => PCall (PName (u "getattr")) [mean var p; PStr (squote s)] end | _ => PCall (PName (u "getattr")) [mean var p; PStr (squote s)] end end) by reflexivity.
      destruct (item_of e ids p s) as [[name r]|] eqn:It.
      { destruct (item_run p s name r st It S I (c_with _ _ _ K)) as (x & st2 & A & B & C & D). exists x, st2. split; [exact A|]. split; [exact B|]. split; [|exact D].
        intros var V. rewrite M. apply C, V. }
      cbn [lists] in R. destruct p; try solve [destruct (plain_attr _ s H S st I K R) as (x & st2 & A & B & C & D); exists x, st2; split; [exact A|]; split; [exact B|]; split; [|exact D]; intros var V; rewrite M; apply C, V].
      destruct (category_of e ids p1) as [cat|] eqn:Ca.
      - cbn [lists] in R. apply sub_lists in R as [_ R]. destruct (keyed_attr p1 p2 cat s Ca (H2 _ _ eq_refl) S st I K R) as (x & st2 & A & B & C & D).
        exists x, st2. split; [exact A|]. split; [exact B|]. split; [|exact D]. intros var V. rewrite M. apply C, V.
      - destruct (plain_attr _ s H S st I K R) as (x & st2 & A & B & C & D). exists x, st2. split; [exact A|]. split; [exact B|]. split; [|exact D]. intros var V. rewrite M. apply C, V. }
    destruct X as (x & st2 & A & B & C & D & F). exists x, st2. split; [exact A|]. split; [exact B|]. split; [exact C|]. split; [exact D|]. split; [discriminate|]. congruence.
  Qed.

  Lemma ok_sub p x : ok p -> ok x -> ok (XSub p x).
  Proof.
    intros H H2 S st I K R. cbn [DrelSpec.sentence] in S. destruct (category_of e ids p); [discriminate S|]. apply andb_true_iff in S as [S S3]. apply andb_true_iff in S as [S1 S2].
    cbn [DrelSpec.names lists DrelSpec.needs] in *. apply sub_calm in K as [K1 K2]. apply sub_lists in R as [R1 R2].
    destruct (H S2 st I K1 R1) as (s & st1 & E & W & G & UN & AT & ID). destruct (step _ _ _ _ I W K1) as [I1 K1'].
    destruct (H2 S3 st1 I1 (calm_grows _ _ _ _ _ K2 W) (rhs_grows _ _ _ _ W R2)) as (s2 & st2 & E2 & W2 & G2 & _).
    pose proof (primary p S2 S1) as PL. rewrite PL in G.
    assert (Q : forall var, agrees var (s_with st2) -> Good 10 (s ++ u "[" ++ s2 ++ u "]") (PSub (mean var p) [mean var x])).
    { intros var V. apply Good_sub; [discriminate|apply G, (agrees_grows _ _ _ _ W2 V)|]. apply (GoodItems_join [s2] [mean var x]); [discriminate|]. constructor; [|constructor]. apply GoodItem_expr, (Good_0 x), G2, V. }
    pose proof (Q _ (numbered_agree _ (g_with _ _ _ W2 (c_with _ _ _ K1')))) as Q0.
    exists (s ++ u "[" ++ s2 ++ u "]"), st2. split.
    { cbn [bx traverse]. rewrite (not_tag p S2). unfold tbind at 1. rewrite E. rewrite (calm_find e st1 _ s K1' UN ID).
      unfold tbind. rewrite E2. unfold tret, sapp. cbn [concat]. rewrite app_nil_r. reflexivity. }
    split; [exact (grows_trans _ _ _ _ _ W W2)|]. cbn [pylev DrelSpec.mean]. split; [exact Q|].
    split; [apply untag_app; [apply (Good_start _ _ _ (G _ (numbered_agree _ (c_with _ _ _ K1'))))|exact UN]|]. split; [discriminate|].
    intros J. destruct (ident_sub _ _ _ Q0 J).
  Qed.
  Lemma ok_slices p l : ok p -> Forall (in_item ok) l -> ok (XSlices p l).
  Proof.
    intros H F S st I K R. cbn [DrelSpec.sentence] in S. apply andb_true_iff in S as [S S4]. apply andb_true_iff in S as [S S3]. apply andb_true_iff in S as [S1 S2].
    apply length0 in S3. cbn [DrelSpec.names lists DrelSpec.needs] in *. apply sub_calm in K as [K1 K2]. apply sub_lists in R as [R1 R2].
    destruct (H S2 st I K1 R1) as (s & st1 & E & W & G & UN & AT & ID). pose proof (primary p S2 S1) as PL. rewrite PL in G. destruct (step _ _ _ _ I W K1) as [I1 K1'].
    pose proof (calm_grows _ _ _ _ _ K2 W) as K2'. pose proof (rhs_grows _ _ _ _ W R2) as R2'.
    assert (X : exists xs st2, Run (one_slice (traverse e)) (map bi l) st1 xs st2 /\ grows st1 st2 (flat_map (item_needs e ids) l)
      /\ (forall var, agrees var (s_with st2) -> Forall2 GoodItem xs (map (mean_item e ids var) l)) /\ length xs = length l).
    { clear S3 W G E K1' K2 R2 K1 R1. revert st1 I1 K2' R2'. induction F as [|i l Hi F IH]; intros st1 I1 K2 R2; [exists [], st1; split; [constructor|]; split; [apply grows_refl|]; split; [constructor|reflexivity]|].
      cbn [forallb flat_map existsb] in *. apply andb_true_iff in S4 as [S5 S6]. apply sub_calm in K2 as [K3 K4]. apply sub_lists in R2 as [R3 R4].
      destruct i as [c|]; [|discriminate S5]. cbn [in_item] in Hi. destruct (Hi S5 st1 I1 K3 R3) as (x & st2 & E2 & W2 & G2 & _). destruct (step _ _ _ _ I1 W2 K4) as [I2 K4'].
      destruct (IH S6 st2 I2 K4' (rhs_grows _ _ _ _ W2 R4)) as (xs & st3 & A & W3 & B & C). exists (x :: xs), st3. cbn [map length]. split; [econstructor; [exact E2|exact A]|].
      split; [exact (grows_trans _ _ _ _ _ W2 W3)|]. split; [|congruence].
      intros var V. constructor; [apply GoodItem_expr, (Good_0 c), G2, (agrees_grows _ _ _ _ W3 V)|exact (B var V)]. }
    destruct X as (xs & st2 & A & W2 & B & C). pose proof (ne_length l xs C S3) as NX.
    assert (Q : forall var, agrees var (s_with st2) -> Good 10 (s ++ u "[" ++ joinc xs ++ u "]") (PSub (mean var p) (map (mean_item e ids var) l))).
    { intros var V. apply Good_sub; [destruct l; [congruence|discriminate]|apply G, (agrees_grows _ _ _ _ W2 V)|apply GoodItems_join; [exact NX|apply B, V]]. }
    pose proof (Q _ (numbered_agree _ (g_with _ _ _ W2 (c_with _ _ _ K1')))) as Q0.
    exists (s ++ u "[" ++ joinc xs ++ u "]"), st2. split.
    { cbn [bx traverse]. unfold tbind at 1. rewrite E. unfold tbind. rewrite (commas_run _ [] _ _ xs _ A). unfold tret.
      rewrite concat_plain, drop_joined by exact NX. rewrite <- !app_assoc. reflexivity. }
    split; [exact (grows_trans _ _ _ _ _ W W2)|]. cbn [pylev DrelSpec.mean]. split; [exact Q|].
    split; [apply untag_app; [apply (Good_start _ _ _ (G _ (numbered_agree _ (c_with _ _ _ K1'))))|exact UN]|]. split; [discriminate|].
    intros J. destruct (ident_sub _ _ _ Q0 J).
  Qed.
  Definition opt_needs (o : option cx) : list (str * bool) := match o with Some x => needs x | None => [] end.
  Lemma ok_range p a b c : ok p -> opt ok a -> opt ok b -> opt ok c -> ok (XRange p a b c).
  Proof.
    intros H Ha Hb Hc S st I K R. cbn [DrelSpec.sentence] in S.
    repeat (apply andb_true_iff in S as [S ?]). rename S into S1.
    cbn [DrelSpec.names lists DrelSpec.needs] in *. apply sub_calm in K as [K1 K]. apply sub_calm in K as [Ka K]. apply sub_calm in K as [Kb Kc].
    apply sub_lists in R as [R Rc]. apply sub_lists in R as [R Rb]. apply sub_lists in R as [R1 Ra].
    destruct a as [a|]; [|discriminate].
    destruct (H ltac:(assumption) st I K1 R1) as (s & st1 & E & W & G & UN & AT & ID). rewrite (primary p ltac:(assumption) S1) in G. cbn [opt] in Ha.
    destruct (step _ _ _ _ I W K1) as [I1 K1'].
    pose proof (calm_grows _ _ _ _ _ Ka W) as Ka'. pose proof (calm_grows _ _ _ _ _ Kb W) as Kb'. pose proof (calm_grows _ _ _ _ _ Kc W) as Kc'.
    pose proof (rhs_grows _ _ _ _ W Ra) as Ra'. pose proof (rhs_grows _ _ _ _ W Rb) as Rb'. pose proof (rhs_grows _ _ _ _ W Rc) as Rc'.
    destruct (Ha ltac:(assumption) st1 I1 Ka' Ra') as (sa & sta & Ea & Wa & Ga & _).
    destruct (step _ _ _ _ I1 Wa Kb') as [Ia Kb2]. pose proof (calm_grows _ _ _ _ _ Kc' Wa) as Kc2.
    pose proof (rhs_grows _ _ _ _ Wa Rb') as Rb2. pose proof (rhs_grows _ _ _ _ Wa Rc') as Rc2.
    assert (X : exists x st2, one_slice (traverse e) (SlL (proper_slice (Some (ElN (AExpr (bx a)))) (option_map (fun e => ElN (AExpr (bx e))) b) (option_map (fun e => ElN (AExpr (bx e))) c))) st1 = Ret (x, st2)
       /\ grows st1 st2 (needs a ++ opt_needs b ++ opt_needs c)
       /\ forall var, agrees var (s_with st2) -> GoodItem x (PSlice (Some (mean var a)) (option_map (mean var) b) (option_map (mean var) c))).
    { destruct b as [b|]; [|destruct c; [discriminate|]].
      - cbn [opt] in Hb. destruct (Hb ltac:(assumption) sta Ia Kb2 Rb2) as (sb & stb & Eb & Wb & Gb & _).
        destruct c as [c|].
        + cbn [opt] in Hc. destruct (step _ _ _ _ Ia Wb Kc2) as [Ib Kc3]. destruct (Hc ltac:(assumption) stb Ib Kc3 (rhs_grows _ _ _ _ Wb Rc2)) as (sc & stc & Ec & Wc & Gc & _).
          exists (sa ++ u ":" ++ sb ++ u ":" ++ sc), stc. split.
          { cbn [option_map proper_slice short_slice app one_slice slice_element traverse]. unfold tbind. rewrite Ea, Eb, Ec. unfold tret, sapp. cbn [concat]. rewrite app_nil_r. reflexivity. }
          split; [exact (grows_trans _ _ _ _ _ Wa (grows_trans _ _ _ _ _ Wb Wc))|]. intros var V. pose proof (agrees_grows _ _ _ _ Wc V) as Vb.
          apply GoodItem_3; [apply (Good_0 a), Ga, (agrees_grows _ _ _ _ Wb Vb)|apply (Good_0 b), Gb, Vb|apply (Good_0 c), Gc, V].
        + exists (sa ++ u ":" ++ sb), stb. split.
          { cbn [option_map proper_slice short_slice app one_slice slice_element traverse]. unfold tbind. rewrite Ea, Eb. unfold tret, sapp. cbn [concat]. rewrite app_nil_r. reflexivity. }
          cbn [opt_needs]. rewrite app_nil_r. split; [exact (grows_trans _ _ _ _ _ Wa Wb)|]. intros var V. apply GoodItem_2; [apply (Good_0 a), Ga, (agrees_grows _ _ _ _ Wb V)|apply (Good_0 b), Gb, V].
      - exists (sa ++ u ":"), sta. split; [cbn [option_map proper_slice short_slice app one_slice slice_element traverse]; unfold tbind; rewrite Ea; reflexivity|].
        cbn [opt_needs]. rewrite !app_nil_r. split; [exact Wa|]. intros var V. apply GoodItem_1, (Good_0 a), Ga, V. }
    destruct X as (x & st2 & Ex & Wx & Gx).
    assert (Q : forall var, agrees var (s_with st2) -> Good 10 (s ++ u "[" ++ x ++ u "]") (PSub (mean var p) [PSlice (Some (mean var a)) (option_map (mean var) b) (option_map (mean var) c)])).
    { intros var V. apply Good_sub; [discriminate|apply G, (agrees_grows _ _ _ _ Wx V)|]. apply (GoodItems_join [x]); [discriminate|]. constructor; [apply Gx, V|constructor]. }
    pose proof (Q _ (numbered_agree _ (g_with _ _ _ Wx (c_with _ _ _ K1')))) as Q0.
    exists (s ++ u "[" ++ x ++ u "]"), st2. split.
    { cbn [bx traverse option_map]. unfold tbind at 1. rewrite E. unfold tbind at 1.
      rewrite (commas_run _ [] _ st1 [x] st2); [|econstructor; [exact Ex|constructor]]. unfold tret.
      rewrite concat_plain, drop_joined by discriminate. cbn [joinc]. rewrite <- !app_assoc. reflexivity. }
    split; [exact (grows_trans _ _ _ _ _ W Wx)|]. cbn [pylev DrelSpec.mean]. split; [exact Q|].
    split; [apply untag_app; [apply (Good_start _ _ _ (G _ (numbered_agree _ (c_with _ _ _ K1'))))|exact UN]|]. split; [discriminate|].
    intros J. destruct (ident_sub _ _ _ Q0 J).
  Qed.
  (** Operators *)
  Lemma mathop_one op x y s s2 st : mathop_text op x y st = Ret (s, st) -> mathop_text op x y st = Ret (s2, st) -> s = s2.
  Proof. congruence. Qed.
  Lemma ok_bin op a b : ok a -> ok b -> ok (XBin op a b).
  Proof.
    intros Ha Hb S st I K R. cbn [DrelSpec.sentence] in S. apply andb_true_iff in S as [S S4]. apply andb_true_iff in S as [S S3]. apply andb_true_iff in S as [S1 S2].
    cbn [DrelSpec.names lists DrelSpec.needs] in *. apply sub_calm in K as [K1 K2]. apply sub_lists in R as [R1 R2].
    destruct (Ha S3 st I K1 R1) as (x & st1 & E & W & G & UN & AT & ID). destruct (step _ _ _ _ I W K2) as [I1 K2'].
    destruct (Hb S4 st1 I1 K2' (rhs_grows _ _ _ _ W R2)) as (y & st2 & E2 & W2 & G2 & _).
    pose proof (numbered_agree _ (g_with _ _ _ W2 (c_with _ _ _ K2'))) as V0.
    assert (B : forall var, agrees var (s_with st2) -> exists s, (forall st, mathop_text op x y st = Ret (s, st)) /\ Good (pylev (XBin op a b)) s (bin_meaning op (mean var a) (mean var b)) /\
      (s = x ++ skipn (length x) s \/ is_letter (hd 0%N s) = true)).
    { intros var V. exact (bin_good e ids op a b x y _ _ S1 S2 S3 S4 (G var (agrees_grows _ _ _ _ W2 V)) (G2 var V)). }
    destruct (B _ V0) as (s & T & Q & Z). exists s, st2. split.
    { cbn [bx traverse]. unfold tbind. rewrite E, E2. apply T. }
    split; [exact (grows_trans _ _ _ _ _ W W2)|]. cbn [DrelSpec.mean]. split.
    { intros var V. destruct (B var V) as (s2 & T2 & Q2 & _). rewrite (mathop_one _ _ _ _ _ _ (T st) (T2 st)). exact Q2. }
    split; [|split; [discriminate|]].
    - destruct Z as [Z|Z]; [rewrite Z; apply untag_app; [apply (Good_start _ _ _ (G _ (agrees_grows _ _ _ _ W2 V0)))|exact UN]|]. left. intros X. rewrite X in Z. discriminate Z.
    - intros J. exfalso. destruct (identifier_name s J) as [N KW]. pose proof (Good_Reads _ _ (Good_0 _ _ _ Q)) as RA.
      pose proof (Good_Reads _ _ (G0 _ _ (Good_name s N KW))) as RB. unfold Reads in *. pose proof (reads_det _ _ _ _ RA RB) as X. injection X as X.
      unfold bin_meaning in X. repeat match type of X with (if ?c then _ else _) = _ => destruct c end; discriminate X.
  Qed.
  Lemma ok_not a : ok a -> ok (XNot a).
  Proof.
    intros H S st I K R. cbn [DrelSpec.sentence] in S. apply andb_true_iff in S as [S1 S2]. cbn [DrelSpec.names lists DrelSpec.needs] in *.
    destruct (H S2 st I K R) as (x & st2 & E & W & G & _). exists (u "not " ++ x), st2. split.
    { cbn [bx traverse]. unfold tbind. rewrite E. unfold tret, sapp. cbn [concat]. rewrite app_nil_r. reflexivity. }
    split; [exact W|]. cbn [pylev DrelSpec.mean]. split.
    - intros var V. apply Good_not. apply (Good_down 2 (pylev a)); [apply pylev_le| |exact (G var V)]. apply (level_pylev e ids a S2). apply Nat.leb_le, S1.
    - split; [left; discriminate|]. split; [discriminate|]. intros J. exfalso. change (identifier (u "not " ++ x)) with (identifier ([110%N; 111%N; 116%N; 32%N] ++ x)) in J. cbn in J. discriminate J.
  Qed.
Lemma ok_sign op a : ok a -> ok (XSign op a).
Proof.
  intros H S st I K R. cbn [DrelSpec.sentence] in S. apply andb_true_iff in S as [S S3]. apply andb_true_iff in S as [S1 S2]. cbn [DrelSpec.names lists DrelSpec.needs] in *.
  destruct (H S3 st I K R) as (x & st2 & E & W & G & _).
  assert (O : op = u "-" \/ op = u "+").
  { apply orb_true_iff in S1 as [X|X]; [left|right]; (destruct (str_eqb_spec op (u "-")) || idtac); (destruct (str_eqb_spec op (u "+")) || idtac); congruence. }
  exists (u "drel_runtime.drel_dot(" ++ op ++ u "1," ++ x ++ u ")"), st2. split.
  { cbn [bx traverse]. unfold tbind. rewrite E. unfold tret, sapp. cbn [concat]. rewrite app_nil_r. reflexivity. }
  split; [exact W|]. cbn [pylev DrelSpec.mean]. split; [|split; [left; discriminate|split; discriminate]].
  intros var V. specialize (G var V). apply Good_0 in G. destruct G as (tx & A1 & A2 & A3 & A4).
    assert (F : Good 10 (u "drel_runtime.drel_dot") (dotted "drel_runtime" ["drel_dot"])) by path "drel_runtime" ["drel_dot"].
    assert (Q : GoodSeq (op ++ u "1," ++ x) [PNeg op (PNum (u "1")); mean var a]).
    { exists ([TOp op; TNum (u "1")] ++ TOp (u ",") :: tx). split.
      - intros rest R2. rewrite <- app_assoc. change ((u "1," ++ x) ++ rest) with (u "1," ++ x ++ rest).
        assert (L : forall r, lex LIdle (op ++ u "1," ++ r) = TOp op :: TNum (u "1") :: TOp (u ",") :: lex LIdle r) by (intros r; destruct O as [->| ->]; reflexivity).
        rewrite L, (A1 rest R2). reflexivity.
      - apply Seq_cons; [destruct O as [->| ->]; repeat split; intros; lia| |apply Seq_one; assumption].
        assert (R8 : Rd 8 [TOp op; TNum (u "1")] (PNeg op (PNum (u "1")))).
        { apply (Rd_neg op [TNum (u "1")]); [exact O|]. apply Rd_down; [lia|repeat split|]. apply Rd_down; [lia|repeat split|]. apply Rd_num. reflexivity. }
        assert (HD8 : forall k, k <= 8 -> hdok k [TOp op; TNum (u "1")]) by (intros k Lk; destruct O as [->| ->]; repeat split; intros; lia).
        do 8 (apply Rd_down; [lia|apply HD8; lia|]). exact R8. }
    pose proof (GoodA_call _ _ (u "(") _ _ opening1 F Q) as X. rewrite <- !app_assoc in X. apply GoodA_Good, X.
Qed.

  Theorem all_ok c : ok c.
  Proof.
    enough (X : ok c /\ (forall q key, c = XSub q key -> ok key)) by apply X.
    assert (F : forall l, Forall (fun c => ok c /\ (forall q key, c = XSub q key -> ok key)) l -> Forall ok l) by (intros l H; eapply Forall_impl; [|exact H]; intros x Hx; apply Hx).
    apply (cx_all (fun c => ok c /\ (forall q key, c = XSub q key -> ok key))); clear c.
    - intros s. split; [apply ok_name|discriminate].
    - intros s. split; [intros S; discriminate S|discriminate].
    - intros s. split; [apply ok_lit|discriminate].
    - intros l H. split; [apply ok_group, F, H|discriminate].
    - intros l H. split; [apply ok_conv, F, H|discriminate].
    - intros l H. split; [apply ok_list_lit, F, H|discriminate].
    - intros l H. split; [apply ok_table|discriminate]. eapply Forall_impl; [|exact H]. intros x Hx. apply Hx.
    - intros p s [H H2]. split; [apply ok_attr; assumption|discriminate].
    - intros p x [H _] [H2 _]. split; [apply ok_sub; assumption|]. intros q key X. injection X as <- <-. exact H2.
    - intros p a b c [H _] Ha Hb Hc. split; [|discriminate]. apply ok_range; [exact H| | |]; [destruct a|destruct b|destruct c]; cbn [opt] in *; tauto.
    - intros p l [H _] Hl. split; [|discriminate]. apply ok_slices; [exact H|]. eapply Forall_impl; [|exact Hl].
      intros [x|a b c] Hx; cbn [in_item] in *; [apply Hx|]. destruct a, b, c; cbn [opt] in *; tauto.
    - intros f l H. split; [apply ok_call, F, H|discriminate].
    - intros op a b [Ha _] [Hb _]. split; [apply ok_bin; assumption|discriminate].
    - intros a [H _]. split; [apply ok_not, H|discriminate].
    - intros op a [H _]. split; [apply ok_sign, H|discriminate].
  Qed.
End Cases.
