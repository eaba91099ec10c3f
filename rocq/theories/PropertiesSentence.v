(** C119: methods of dREL have the trees that their statements give them. *)
From Coq Require Import String Ascii List NArith PeanoNat Bool Lia.
From Verif Require Import PyBase LexModel LexSpec DrelModel PhraseModel PhraseSpec PhraseProofs3 PhraseProofs5 SentenceModel SentenceSpec SentenceProofs SentenceProofs2 SentenceProofs3 PropertiesLex PropertiesPhrase.
Import ListNotations.
Open Scope nat_scope.

(** What is found is what the tokens say. *)
Theorem C119_sound ts l : method ts = Ret l -> method_says false l ts.
Proof. exact (method_sound ts l). Qed.
(** What the tokens say is found, if no "else" could go to two "if" and no body
    begins with a token that can go on with the expression before it. *)
Theorem C119_complete ts l : method_says true l ts -> method ts = Ret l.
Proof. exact (method_found l ts). Qed.
Theorem C119_one_tree ts l l' : method_says true l ts -> method_says true l' ts -> l = l'.
Proof. intros H1 H2. apply C119_complete in H1, H2. rewrite H1 in H2. now injection H2. Qed.
(** The parser ends for every row of tokens. *)
Theorem C119_ends ts : (exists l, method ts = Ret l) \/ method ts = Raise SyntaxErr.
Proof. exact (method_ends ts). Qed.
Theorem C119_fails ts : (forall l, ~ method_says false l ts) -> method ts = Raise SyntaxErr.
Proof. intros H. destruct (C119_ends ts) as [(l & E)|E]; [|exact E]. destruct (H l (C119_sound _ _ E)). Qed.
(** From the text: the tokens are those of C99. *)
Theorem C119_text st s l : (exists ts st', lex st s = Ret (ts, st') /\ method ts = Ret l) -> exists ts d, reads (s_depth st) s ts d /\ method_says false l ts.
Proof. intros (ts & st' & L & E). exists ts, (s_depth st'). split; [apply C99_exact; eauto|now apply C119_sound]. Qed.
Theorem C119_text_found st s l ts d : reads (s_depth st) s ts d -> method_says true l ts ->
  exists st', lex st s = Ret (ts, st') /\ method ts = Ret l.
Proof. intros R Y. apply C99_exact in R as (st' & L & _). exists st'. split; [exact L|now apply C119_complete]. Qed.

(** Statements one after the other are read one after the other. *)
Theorem C119_sequence l l' ts ts' : all_state true l ts -> all_state true l' ts' -> method (ts ++ ts') = Ret (l ++ l').
Proof.
  intros H H'. apply C119_complete. exists [], (ts ++ ts'). split; [constructor|]. split; [|reflexivity].
  revert ts H. induction l as [|c l IH]; intros ts H; [inversion H|]. inversion H as [c0 o t Y|c0 o l0 tc t Y Ys]; subst.
  - exact (A_more true c o l' ts ts' Y H').
  - rewrite <- app_assoc. apply (A_more true c o (l ++ l') tc (t ++ ts') Y). now apply IH.
Qed.
(** An "else" goes to the last "if" before it. *)
Theorem C119_else c d s e v0 v1 v2 v3 v4 v5 v6 tc td ts te o : says 0 c tc -> says 0 d td -> suite true false s ts -> suite true o e te ->
  method ((IF, v0) :: (OPEN_PAREN, v1) :: tc ++ (CLOSE_PAREN, v2) :: (IF, v3) :: (OPEN_PAREN, v4) :: td ++ (CLOSE_PAREN, v5) :: ts ++ (ELSE, v6) :: te)
  = Ret [CIf c [CIf d s [] (Some e)] [] None].
Proof.
  intros Yc Yd Us Ue. apply C119_complete. eexists [], _. split; [constructor|]. split; [|reflexivity]. apply (A_one true _ true).
  pose proof (S_if true d s [] (Some e) v3 v4 v5 [] false o td ts _ Yd (Forall_nil _) Us (T_else true false e v6 o te (fun _ => eq_refl) Ue)) as Y1.
  pose proof (S_if true c [CIf d s [] (Some e)] [] None v0 v1 v2 [] o true tc _ [] Yc (Forall_nil _) (U_one true _ _ _ Y1) (T_none true o)) as Y2.
  cbn [app] in Y2. rewrite app_nil_r in Y2. exact Y2.
Qed.

(** A newline may stand before the body of "if", "elseif" and "with", but not
    before that of "else", "for", "do", "loop" and "repeat". *)
Lemma suite_newline g v r : p_suite (S (S g)) ((NEWLINE, v) :: r) = Raise SyntaxErr.
Proof.
  rewrite p_suite_S. cbn [at_kind]. rewrite p_stmt_S, p_simple_S. cbn [kind_is curly_open].
  assert (p_small ((NEWLINE, v) :: r) = Raise SyntaxErr) as ->; [|reflexivity].
  cbn [p_small fancy].
  assert (p_exprs ((NEWLINE, v) :: r) = Raise SyntaxErr) as ->; [|reflexivity].
  destruct (p_exprs ((NEWLINE, v) :: r)) as [[l q]|e] eqn:E.
  - apply exprs_sound in E as (t & E & Y). apply all_opens in Y. destruct t as [|[k w] t]; [destruct Y|]. cbn [app] in E. injection E as <- _ _. discriminate Y.
  - destruct (p_exprs_plain _ _ E) as [-> | ->]; [reflexivity|]. destruct (exprs_fine _ E).
Qed.
Lemma head_newline f ts : p_stmt f ts = Raise SyntaxErr -> f = pred (4 * S (length ts)) -> skip_nl ts = ts -> method ts = Raise SyntaxErr.
Proof. intros E -> Sk. unfold method. rewrite Sk. replace (4 * S (length ts)) with (S (pred (4 * S (length ts)))) at 1 by lia. rewrite p_input_S, E. reflexivity. Qed.
Theorem C119_newline_if c s v0 v1 v2 n tc ts : says 0 c tc -> newlines n -> suite true false s ts ->
  method ((IF, v0) :: (OPEN_PAREN, v1) :: tc ++ (CLOSE_PAREN, v2) :: n ++ ts) = Ret [CIf c s [] None].
Proof.
  intros Yc N Us. apply C119_complete. eexists [], _. split; [constructor|]. split; [|reflexivity]. apply (A_one true _ true).
  pose proof (S_if true c s [] None v0 v1 v2 n false true tc ts [] Yc N Us (T_none true false)) as Y. rewrite app_nil_r in Y. exact Y.
Qed.
Theorem C119_newline_else c s v0 v1 v2 v3 v4 n tc ts r : says 0 c tc -> newlines n -> suite true false s ts ->
  method ((IF, v0) :: (OPEN_PAREN, v1) :: tc ++ (CLOSE_PAREN, v2) :: n ++ ts ++ (ELSE, v3) :: (NEWLINE, v4) :: r) = Raise SyntaxErr.
Proof.
  intros Yc N Us. eapply head_newline; [|reflexivity|reflexivity].
  cbn [length]. rewrite app_length. cbn [length]. rewrite !app_length. cbn [length].
  match goal with |- p_stmt ?f _ = _ => assert (exists g, f = S (S (S g)) /\ 4 * length ts + 2 <= S (S g)) as (g & -> & L) by (exists (f - 3); lia) end.
  rewrite p_stmt_S. rewrite (cond_found c v1 v2 tc _ Yc). cbn [obind fst snd]. rewrite skip_newlines by assumption.
  rewrite (begin_skip _ (begin_app ts _ (suite_begin _ _ _ _ Us))).
  destruct states_found as (_ & _ & Su & _).
  rewrite (Su _ _ _ Us); [|split; [discriminate|discriminate]|exact L]. cbn [obind fst snd]. rewrite p_elifs_S. cbn [obind fst snd].
  rewrite suite_newline. reflexivity.
Qed.
Theorem C119_newline_for ids l v w x ti tl r : for_ids ids ti -> says_all true l tl ->
  method ((FOR, v) :: ti ++ (IN_, w) :: tl ++ (NEWLINE, x) :: r) = Raise SyntaxErr.
Proof.
  intros I Y. eapply head_newline; [|reflexivity|reflexivity].
  match goal with |- p_stmt ?f _ = _ => assert (exists g, f = S (S (S g))) as (g & ->) by (exists (f - 3); cbn [length]; lia) end.
  rewrite p_stmt_S. rewrite (for_head_found ids l ti w tl ((NEWLINE, x) :: r) I Y eq_refl eq_refl). cbn [obind fst snd]. rewrite suite_newline. reflexivity.
Qed.
Theorem C119_newline_do i a b v w z x ta tb r : says 0 a ta -> says 0 b tb ->
  method ((DO, v) :: (ID, i) :: (LIT 61, w) :: ta ++ (LIT 44, z) :: tb ++ (NEWLINE, x) :: r) = Raise SyntaxErr.
Proof.
  intros Ya Yb. eapply head_newline; [|reflexivity|reflexivity].
  match goal with |- p_stmt ?f _ = _ => assert (exists g, f = S (S (S g))) as (g & ->) by (exists (f - 3); cbn [length]; lia) end.
  rewrite p_stmt_S. rewrite (do_head_found i a b w z ta tb ((NEWLINE, x) :: r) Ya Yb eq_refl eq_refl). cbn [obind fst snd]. rewrite suite_newline. reflexivity.
Qed.
Theorem C119_newline_loop a c i op y v w x tt r : loop_tail i op y tt ->
  method ((LOOP, v) :: (ID, a) :: (AS, w) :: (ID, c) :: tt ++ (NEWLINE, x) :: r) = Raise SyntaxErr.
Proof.
  intros T. eapply head_newline; [|reflexivity|reflexivity].
  match goal with |- p_stmt ?f _ = _ => assert (exists g, f = S (S (S g))) as (g & ->) by (exists (f - 3); cbn [length]; lia) end.
  rewrite p_stmt_S, alias_found. cbn [obind fst snd]. rewrite (loop_tail_found i op y tt ((NEWLINE, x) :: r) T eq_refl eq_refl). cbn [obind fst snd]. rewrite suite_newline. reflexivity.
Qed.
Theorem C119_newline_repeat v x r : method ((REPEAT, v) :: (NEWLINE, x) :: r) = Raise SyntaxErr.
Proof.
  eapply head_newline; [|reflexivity|reflexivity].
  match goal with |- p_stmt ?f _ = _ => assert (exists g, f = S (S (S g))) as (g & ->) by (exists (f - 3); cbn [length]; lia) end.
  rewrite p_stmt_S. rewrite suite_newline. reflexivity.
Qed.
(** A method has a newline. *)
Theorem C119_no_newline ts : ~ In NEWLINE (map fst ts) -> method ts = Raise SyntaxErr.
Proof.
  intros NI. apply C119_fails. intros q (n & t & N & Y & ->). rewrite map_app, in_app_iff in NI. apply NI. right. clear N NI.
  assert ((forall o c ts, states false o c ts -> In NEWLINE (map fst ts)) /\ (forall p l els o ts, tail_says false p l els o ts -> True) /\
    (forall o l ts, suite false o l ts -> In NEWLINE (map fst ts)) /\ (forall l ts, all_state false l ts -> In NEWLINE (map fst ts))) as (_ & _ & _ & H).
  { apply (states_mut false); try (intros; exact I); try (intros; cbn [map In]; rewrite ?map_app; cbn [map]; rewrite ?in_app_iff; cbn [In]; rewrite ?map_app, ?in_app_iff; cbn [map In]; rewrite ?in_app_iff; tauto).
    - intros l0 ts e _ E. rewrite map_app, in_app_iff. right. destruct E; cbn [map In fst]; auto.
    - intros i x y e s v w z z' o tx ty te ts _ _ _ _ _ H. cbn [map In]. rewrite map_app. cbn [map]. rewrite in_app_iff. cbn [In]. rewrite map_app. cbn [map]. rewrite in_app_iff. cbn [In]. rewrite map_app, in_app_iff. tauto. }
  exact (H _ _ Y).
Qed.

Definition st_of (s : string) : list (kind * str) := match lex fresh (u s) with Ret (ts, _) => ts | Raise _ => [] end.
Definition nl := String (ascii_of_nat 10) EmptyString.
Local Open Scope string_scope.
Definition line (s : string) : cs := CSimple [MExprs [XName (u s)]].

Lemma line_state b s : states b false (line s) [(ID, u s); (NEWLINE, u nl)].
Proof.
  apply (S_simple b [MExprs [XName (u s)]] [(ID, u s)] [(NEWLINE, u nl)]); [|apply E_nl; constructor].
  apply M_one, M_exprs, Y_last. apply C118_exact. reflexivity.
Qed.
Lemma name_says s : says 0 (XName s) [(ID, s)]. Proof. apply C118_exact. reflexivity. Qed.

(** the grammar (drel_ast_yacc.py 452-469) has two readings of "if (a) if (b) c
    else d": PLY reports the conflict and shifts *)
Theorem C119_two_readings_refuted : exists ts l l', method_says false l ts /\ method_says false l' ts /\ l <> l' /\ method ts = Ret l.
Proof.
  exists ((IF, u "if") :: (OPEN_PAREN, u "(") :: [(ID, u "a")] ++ (CLOSE_PAREN, u ")") :: (IF, u "if") :: (OPEN_PAREN, u "(") :: [(ID, u "b")] ++ (CLOSE_PAREN, u ")") :: [(ID, u "c"); (NEWLINE, u nl)] ++ (ELSE, u "else") :: [(ID, u "d"); (NEWLINE, u nl)])%list.
  exists [CIf (XName (u "a")) [CIf (XName (u "b")) [line "c"] [] (Some [line "d"])] [] None], [CIf (XName (u "a")) [CIf (XName (u "b")) [line "c"] [] None] [] (Some [line "d"])].
  assert (method ((IF, u "if") :: (OPEN_PAREN, u "(") :: [(ID, u "a")] ++ (CLOSE_PAREN, u ")") :: (IF, u "if") :: (OPEN_PAREN, u "(") :: [(ID, u "b")] ++ (CLOSE_PAREN, u ")") :: [(ID, u "c"); (NEWLINE, u nl)] ++ (ELSE, u "else") :: [(ID, u "d"); (NEWLINE, u nl)])%list
    = Ret [CIf (XName (u "a")) [CIf (XName (u "b")) [line "c"] [] (Some [line "d"])] [] None]) as E.
  { apply (C119_else _ _ _ _ _ _ _ _ _ _ _ _ _ _ _ false); [apply name_says|apply name_says|apply U_one, line_state|apply U_one, line_state]. }
  split; [now apply C119_sound|]. split; [|split; [discriminate|exact E]].
  eexists [], _. split; [constructor|]. split; [|reflexivity]. apply (A_one false _ false).
  pose proof (S_if false (XName (u "b")) [line "c"] [] None (u "if") (u "(") (u ")") [] false true _ _ _ (name_says (u "b")) (Forall_nil _) (U_one false _ _ _ (line_state false "c")) (T_none false false)) as Y1.
  exact (S_if false (XName (u "a")) _ [] (Some [line "d"]) (u "if") (u "(") (u ")") [] true false _ _ _ (name_says (u "a")) (Forall_nil _) (U_one false _ _ _ Y1)
    (T_else false true _ (u "else") false _ (fun H => False_ind _ (Bool.diff_false_true H)) (U_one false _ _ _ (line_state false "d")))).
Qed.
(** the body of a "for" that begins with a sign is taken to go on with the list:
    "for i in a -b" is a SyntaxError although the grammar (486-492) allows it *)
Theorem C119_body_refuted : exists ts l, method_says false l ts /\ method ts = Raise SyntaxErr.
Proof.
  exists ((FOR, u "for") :: [(ID, u "i")] ++ (IN_, u "in") :: [(ID, u "a")] ++ [(LIT 45, u "-"); (ID, u "b"); (NEWLINE, u nl)])%list.
  exists [CFor [u "i"] [XName (u "a")] [CSimple [MExprs [XSign (u "-") (XName (u "b"))]]]]. split; [|vm_compute; reflexivity].
  eexists [], _. split; [constructor|]. split; [|reflexivity]. apply (A_one false _ false).
  apply (S_for false [u "i"] [XName (u "a")] _ (u "for") (u "in") false [(ID, u "i")] [(ID, u "a")]); [apply I_bare, I_one|apply Y_last, name_says|discriminate|].
  apply U_one. apply (S_simple false [MExprs [XSign (u "-") (XName (u "b"))]] [(LIT 45, u "-"); (ID, u "b")] [(NEWLINE, u nl)]); [|apply E_nl; constructor].
  apply M_one, M_exprs, Y_last. apply C118_exact. reflexivity.
Qed.
(** a newline may stand between "if (a)" and its body but not between "else"
    and its own (452-456 have no maybe_nline behind ELSE) *)
Theorem C119_newline_refuted : exists c s v0 v1 v2 v3 v4 tc ts l, says 0 c tc /\ suite true false s ts
  /\ method ((IF, v0) :: (OPEN_PAREN, v1) :: tc ++ (CLOSE_PAREN, v2) :: [(NEWLINE, v4)] ++ ts ++ (ELSE, v3) :: ts) = Ret l
  /\ method ((IF, v0) :: (OPEN_PAREN, v1) :: tc ++ (CLOSE_PAREN, v2) :: [(NEWLINE, v4)] ++ ts ++ (ELSE, v3) :: (NEWLINE, v4) :: ts) = Raise SyntaxErr.
Proof.
  exists (XName (u "a")), [line "b"], (u "if"), (u "("), (u ")"), (u "else"), (u nl), [(ID, u "a")], [(ID, u "b"); (NEWLINE, u nl)].
  eexists. split; [apply name_says|]. split; [apply U_one, line_state|]. split; [vm_compute; reflexivity|].
  apply (C119_newline_else (XName (u "a")) [line "b"]); [apply name_says|constructor; [reflexivity|constructor]|apply U_one, line_state].
Qed.

(** A method as dictionaries have them. *)
Definition sample : string :=
  "with c as cell" ++ nl ++ "loop a as atom : i < n {" ++ nl ++ "x += a.y * 2; next" ++ nl ++ "if (x > 1) {" ++ nl ++ "break" ++ nl ++ "}" ++ nl ++ "else t(.p = x, .q = 1)" ++ nl ++ "}" ++ nl
  ++ "_cell.volume = x" ++ nl.
Example C119_meets_text : exists l, method (st_of sample) = Ret l /\ method_says false l (st_of sample) /\ length l = 2.
Proof.
  assert (exists l, method (st_of sample) = Ret l /\ length l = 2) as (l & E & L) by (eexists; split; vm_compute; reflexivity).
  exists l. split; [exact E|]. split; [now apply C119_sound|exact L].
Qed.
Example C119_meets_else : says 0 (XName (u "a")) [(ID, u "a")] /\ suite true false [line "b"] [(ID, u "b"); (NEWLINE, u nl)].
Proof. split; [apply name_says|apply U_one, line_state]. Qed.
Example C119_meets_strict : method_says true [CRepeat [line "b"]; line "c"] [(NEWLINE, u nl); (REPEAT, u "repeat"); (LIT 123, u "{"); (ID, u "b"); (NEWLINE, u nl); (LIT 125, u "}"); (NEWLINE, u nl); (ID, u "c"); (NEWLINE, u nl)].
Proof.
  exists [(NEWLINE, u nl)]. eexists. split; [constructor; [reflexivity|constructor]|]. split; [|reflexivity].
  apply (A_more true (CRepeat [line "b"]) false [line "c"] [(REPEAT, u "repeat"); (LIT 123, u "{"); (ID, u "b"); (NEWLINE, u nl); (LIT 125, u "}"); (NEWLINE, u nl)] [(ID, u "c"); (NEWLINE, u nl)]).
  - apply S_repeat. apply (U_block true [line "b"] (u "{") (u "}") [] [(NEWLINE, u nl)] [(ID, u "b"); (NEWLINE, u nl)]); [constructor|constructor; [reflexivity|constructor]|].
    apply (A_one true _ false). apply line_state.
  - apply (A_one true _ false). apply line_state.
Qed.

Definition sentence_theorems := (C119_sound, C119_complete, C119_one_tree, C119_ends, C119_fails, C119_text, C119_text_found, C119_sequence, C119_else, C119_newline_if, C119_newline_else, C119_newline_for, C119_newline_do, C119_newline_loop, C119_newline_repeat, C119_no_newline, C119_two_readings_refuted, C119_body_refuted, C119_newline_refuted).
Print Assumptions sentence_theorems.
