(** What the tokens say is found: lines and heads. *)
From Coq Require Import String Ascii List NArith PeanoNat Bool Lia.
From Verif Require Import PyBase LexModel DrelModel PhraseModel PhraseSpec PhraseProofs PhraseProofs2 PhraseProofs3 PhraseProofs4 PhraseProofs5 SentenceModel SentenceSpec SentenceProofs.
Import ListNotations.
Open Scope nat_scope.

Lemma expr_found e te rest : says 0 e te -> stops 0 rest -> p_expr (te ++ rest) = Ret (e, rest).
Proof.
  intros Y St. unfold p_expr. apply (found_stop 0 e te OrTest rest _ (proj1 says_found _ _ _ Y) eq_refl St). unfold enough. rewrite app_length. lia.
Qed.
Lemma exprs_found l ts rest : says_all true l ts -> stops 0 rest -> at_kind comma rest = None -> p_exprs (ts ++ rest) = Ret (l, rest).
Proof.
  intros Y St C. unfold p_exprs. apply (proj1 (proj2 says_found) _ _ _ Y); [auto|auto|]. unfold enough. rewrite app_length. lia.
Qed.
Lemma all_opens nl l ts : says_all nl l ts -> opens 0 ts.
Proof. intros Y. exact (proj1 (proj1 (proj2 says_found) _ _ _ Y)). Qed.
Lemma id_found s r : p_id ((ID, s) :: r) = Ret (s, r). Proof. reflexivity. Qed.
Lemma expect_found {A} k (x : A) v r : kind_is k k = true -> expect k x ((k, v) :: r) = Ret (x, r).
Proof. intros E. cbn [expect]. now rewrite E. Qed.
Lemma kind_is_other k k' : k <> k' -> kind_is k k' = false.
Proof. intros N. destruct (kind_is k k') eqn:E; [|auto]. apply kind_is_eq in E. congruence. Qed.
Lemma at_other k k' v r : k <> k' -> at_kind k ((k', v) :: r) = None.
Proof. intros N. cbn [at_kind]. now rewrite kind_is_other. Qed.

Lemma dots_found l ts : dots_say l ts -> forall f rest, length ts <= f -> stops 0 rest -> at_kind comma rest = None -> p_dots f (ts ++ rest) = Ret (l, rest).
Proof.
  induction 1 as [s e v w te Y|s e l v w x te ts Y _ IH]; intros f rest L St C; cbn [length] in L; (destruct f as [|f]; [lia|]); rewrite p_dots_S; cbn [app].
  - unfold dot, equals. rewrite expect_found by reflexivity. cbn [obind snd fst]. rewrite id_found. cbn [obind snd fst].
    rewrite expect_found by reflexivity. cbn [obind snd fst]. rewrite (expr_found e te rest Y St). cbn [obind snd fst]. now rewrite C.
  - unfold dot, equals. rewrite expect_found by reflexivity. cbn [obind snd fst]. rewrite id_found. cbn [obind snd fst].
    rewrite expect_found by reflexivity. cbn [obind snd fst]. rewrite <- app_assoc. cbn [app].
    rewrite (expr_found e te ((LIT 44, x) :: ts ++ rest) Y eq_refl). cbn [obind snd fst]. rewrite at_same by reflexivity.
    rewrite app_length in L. cbn [length] in L. rewrite IH by (auto; lia). reflexivity.
Qed.

Ltac use_ih := match goal with HH : forall rest, _ -> _ |- _ => apply HH end.
(** No expression begins like the assignment of several items. *)
Lemma no_fancy n c ts : says n c ts -> forall rest, stops 9 rest -> fancy (ts ++ rest) = None.
Proof.
  induction 1 using says_ind2 with (P0 := fun _ _ ts => True) (P1 := fun _ ts => True) (P2 := fun _ ts => True) (P3 := fun _ ts => True) (P4 := fun _ ts => True);
  try exact I; intros rest S9; try reflexivity.
  - auto.
  - rewrite <- !app_assoc. use_ih. apply operator_levels in H as Hl.
    destruct H as [k v [-> | ->]|k v [-> | ->]|k v K| |k v K|k v K|]; try reflexivity; cbn [In] in K; repeat (destruct K as [<-|K]; [reflexivity|]); destruct K.
  - cbn [In] in H. destruct H as [<-|[<-|[]]]; reflexivity.
  - cbn [app fancy]. now rewrite (stops_call _ S9).
  - unfold number_kinds in H. cbn [In] in H. repeat (destruct H as [<-|H]; [reflexivity|]). destruct H.
  - destruct H as [k s [-> | ->]|k p s _]; reflexivity.
  - rewrite <- app_assoc. use_ih. reflexivity.
  - rewrite <- app_assoc. use_ih. reflexivity.
  - rewrite <- app_assoc. use_ih. reflexivity.
  - rewrite <- app_assoc. use_ih. reflexivity.
  - rewrite <- app_assoc. use_ih. reflexivity.
  - cbn [app fancy]. rewrite at_same by reflexivity. rewrite <- app_assoc. now rewrite (opens_not_at 0 _ dot (opens_app 0 ts _ (all_opens _ _ _ H)) eq_refl).
Qed.
Lemma all_no_fancy nl l ts rest : says_all nl l ts -> stops 9 rest -> fancy (ts ++ rest) = None.
Proof.
  intros Y S9. destruct Y as [nl e te Y|nl e l v n te ts Y _ _ _].
  - exact (no_fancy _ _ _ Y rest S9).
  - rewrite <- app_assoc. apply (no_fancy _ _ _ Y). reflexivity.
Qed.

(** Whether what stands behind "{" is the inside of a table. *)
Lemma table_not n c ts : says n c ts -> forall rest, at_kind colon rest = None -> table_next (ts ++ rest) = false.
Proof.
  induction 1 using says_ind2 with (P0 := fun _ _ ts => True) (P1 := fun _ ts => True) (P2 := fun _ ts => True) (P3 := fun _ ts => True) (P4 := fun _ ts => True);
  try exact I; intros rest C; try reflexivity.
  - auto.
  - rewrite <- !app_assoc. use_ih.
    destruct H as [k v [-> | ->]|k v [-> | ->]|k v K| |k v K|k v K|]; try reflexivity; cbn [In] in K; repeat (destruct K as [<-|K]; [reflexivity|]); destruct K.
  - cbn [In] in H. destruct H as [<-|[<-|[]]]; reflexivity.
  - unfold number_kinds in H. cbn [In] in H. repeat (destruct H as [<-|H]; [reflexivity|]). destruct H.
  - unfold table_next. rewrite (opens_not_at 8 _ curly_close (opens_app 8 ts _ (a_string_opens _ _ H)) eq_refl).
    rewrite (string_literal_of s ts rest H). now rewrite C.
  - rewrite <- app_assoc. use_ih. reflexivity.
  - rewrite <- app_assoc. use_ih. reflexivity.
  - rewrite <- app_assoc. use_ih. reflexivity.
  - rewrite <- app_assoc. use_ih. reflexivity.
  - rewrite <- app_assoc. use_ih. reflexivity.
Qed.
Lemma all_table_not nl l ts rest : says_all nl l ts -> at_kind colon rest = None -> table_next (ts ++ rest) = false.
Proof.
  intros Y C. destruct Y as [nl e te Y|nl e l v n te ts Y _ _ _].
  - exact (table_not _ _ _ Y rest C).
  - rewrite <- app_assoc. apply (table_not _ _ _ Y). reflexivity.
Qed.
Definition braces (ts : row) : Prop := forall v r, ts = (LIT 123, v) :: r -> forall rest, table_next (skip_nl (r ++ rest)) = true.
Lemma braces_app ts x : ts <> [] -> braces ts -> braces (ts ++ x).
Proof.
  intros NE H v r E rest. destruct ts as [|t ts]; [contradiction|]. cbn [app] in E. injection E as -> <-. rewrite <- app_assoc. exact (H v ts eq_refl _).
Qed.
Lemma opens_ne n ts : opens n ts -> ts <> []. Proof. destruct ts; [intros []|discriminate]. Qed.
Lemma entries_next l ts rest : says_entries l ts -> table_next (skip_nl (ts ++ rest)) = true.
Proof.
  assert (forall k tk v q, a_string k tk -> table_next (skip_nl (tk ++ (LIT 58, v) :: q)) = true) as D.
  { intros k tk v q A. pose proof (a_string_opens _ _ A) as O. rewrite (opens_skip 8 _ (opens_app 8 tk _ O)). unfold table_next.
    rewrite (opens_not_at 8 _ curly_close (opens_app 8 tk _ O) eq_refl). now rewrite (string_literal_of k tk _ A). }
  destruct 1; rewrite <- app_assoc; cbn [app]; eapply D; eassumption.
Qed.
Lemma table_yes n c ts : says n c ts -> braces ts.
Proof.
  induction 1 using says_ind2 with (P0 := fun _ _ ts => True) (P1 := fun _ ts => True) (P2 := fun _ ts => True) (P3 := fun _ ts => True) (P4 := fun _ ts => True);
  try exact I; try (intros v0 r0 E rest; discriminate E); auto;
  try (apply braces_app; [match goal with HH : says _ _ ts |- _ => exact (opens_ne _ _ (says_opens _ _ _ HH)) end|assumption]).
  - apply braces_app; [|assumption]. match goal with HH : says _ _ ta |- _ => exact (opens_ne _ _ (says_opens _ _ _ HH)) end.
  - intros v0 r0 E. injection E as -> -> _. cbn [In] in H. destruct H as [H|[H|[]]]; discriminate H.
  - intros v0 r0 E. injection E as -> -> _. unfold number_kinds in H. cbn [In] in H. intuition discriminate.
  - intros v0 r0 E. destruct H as [k s [-> | ->]|k p s _]; discriminate E.
  - intros v0 r0 E rest. injection E as -> <-. rewrite <- app_assoc, skip_newlines by assumption. reflexivity.
  - intros v0 r0 E rest. injection E as -> <-. rewrite <- app_assoc, skip_newlines by assumption. rewrite <- app_assoc. eapply entries_next. eassumption.
Qed.
Lemma all_table_yes nl l ts : says_all nl l ts -> braces ts.
Proof.
  destruct 1 as [nl e te Y|nl e l v n te ts Y _ _ _]; [exact (table_yes _ _ _ Y)|]. apply braces_app; [exact (opens_ne _ _ (says_opens _ _ _ Y))|exact (table_yes _ _ _ Y)].
Qed.

(** ** Statements of one line *)
Definition line_k (k : kind) : bool := opens_k 0 k || match k with PRINT | BREAK | NEXT => true | _ => false end.
Definition line_open (ts : row) : Prop := match ts with [] => False | t :: _ => line_k (fst t) = true end.
Lemma line_app ts r : line_open ts -> line_open (ts ++ r).
Proof. destruct ts; [intros []|auto]. Qed.
Lemma opens_line ts : opens 0 ts -> line_open ts.
Proof. destruct ts as [|[k v] r]; [auto|]. cbn. unfold line_k. intros ->. reflexivity. Qed.
Lemma small_open m ts : small_says m ts -> line_open ts.
Proof. destruct 1; try reflexivity; [|apply line_app]; apply opens_line; eapply all_opens; eassumption. Qed.
Lemma smalls_open l ts : smalls_say l ts -> line_open ts.
Proof. destruct 1; [|apply line_app]; eapply small_open; eassumption. Qed.

(** What stops a line: a semicolon or a newline. *)
Definition stop_line (rest : row) : Prop := exists v r, rest = (LIT 59, v) :: r \/ rest = (NEWLINE, v) :: r.
Lemma small_default ts : opens 0 ts -> p_small ts =
      match fancy ts with
      | Some (cat, r) =>
          obind (p_dots (S (length r)) r) (fun l => expect CLOSE_PAREN (MFancy cat (fst l)) (snd l))
      | None =>
          obind (p_exprs ts) (fun x =>
          match snd x with
          | (AUGOP, v) :: r => obind (p_exprs r) (fun y => Ret (pfst (MAssign (fst x) v) y))
          | (LIT c, v) :: r =>
              if (c =? 61)%N then obind (p_exprs r) (fun y => Ret (pfst (MAssign (fst x) v) y))
              else Ret (pfst MExprs x)
          | _ => Ret (pfst MExprs x)
          end)
      end.
Proof. destruct ts as [|[k v] r]; [intros []|]. destruct k; cbn; auto; discriminate. Qed.
Lemma small_found m ts rest : small_says m ts -> stop_line rest -> p_small (ts ++ rest) = Ret (m, rest).
Proof.
  intros Y (x & q & H).
  assert (stops 0 rest /\ at_kind comma rest = None /\ stops 9 rest) as (St & C & S9) by (destruct H as [-> | ->]; repeat split).
  destruct Y as [l ts Y|k v l r tl tr K Yl Yr|cat l v w ts D|v e te Y|v|v].
  - pose proof (all_opens _ _ _ Y) as O. rewrite (small_default _ (opens_app 0 ts rest O)), (all_no_fancy _ _ _ _ Y S9), (exprs_found _ _ _ Y St C).
    cbn [obind snd fst]. destruct H as [-> | ->]; reflexivity.
  - pose proof (all_opens _ _ _ Yl) as O. rewrite <- app_assoc. cbn [app]. rewrite (small_default _ (opens_app 0 tl _ O)).
    assert (stops 9 ((k, v) :: tr ++ rest) /\ stops 0 ((k, v) :: tr ++ rest) /\ at_kind comma ((k, v) :: tr ++ rest) = None) as (Sa & Sb & Sc) by (destruct K as [-> | ->]; repeat split).
    rewrite (all_no_fancy _ _ _ _ Yl Sa), (exprs_found _ _ _ Yl Sb Sc). cbn [obind snd fst].
    destruct K as [-> | ->]; cbn [N.eqb Pos.eqb]; rewrite (exprs_found _ _ _ Yr St C); reflexivity.
  - cbn [app]. rewrite small_default by reflexivity. cbn [fancy]. rewrite at_same by reflexivity. rewrite <- app_assoc. cbn [app].
    assert (exists d, at_kind dot (ts ++ (CLOSE_PAREN, w) :: rest) = Some d) as (d & ->) by (destruct D; eexists; apply at_same; reflexivity).
    rewrite (dots_found _ _ D); [|rewrite app_length; lia|reflexivity|reflexivity]. cbn [obind snd fst]. apply expect_found. reflexivity.
  - cbn [app p_small]. rewrite (expr_found _ _ _ Y St). reflexivity.
  - reflexivity.
  - reflexivity.
Qed.
Lemma small_len m ts : small_says m ts -> 1 <= length ts.
Proof. intros Y. apply small_open in Y. destruct ts; [destruct Y|cbn; lia]. Qed.
Lemma not_newline {A} (ts rest : row) (a : str -> row -> A) b : line_open ts ->
  (match ts ++ rest with (NEWLINE, v) :: r => a v r | _ => b end) = b.
Proof. destruct ts as [|[k v] r]; [intros []|]. cbn [app line_open fst]. destruct k; auto. discriminate. Qed.
Lemma simple_found l ts : smalls_say l ts -> forall f e rest, length ts <= f -> line_end e ->
  exists v n, newlines n /\ p_simple f (ts ++ e ++ rest) = Ret (l, (NEWLINE, v) :: n ++ rest).
Proof.
  induction 1 as [m ts Y|m l v tm ts Y Ys IH]; intros f e rest L E.
  - pose proof (small_len _ _ Y). destruct f as [|f]; [lia|]. rewrite p_simple_S. destruct E as [v n N|x v n N]; exists v, n; (split; [auto|]); cbn [app].
    + rewrite (small_found _ _ ((NEWLINE, v) :: n ++ rest) Y); [reflexivity|]. exists v, (n ++ rest). now right.
    + rewrite (small_found _ _ ((LIT 59, x) :: (NEWLINE, v) :: n ++ rest) Y); [reflexivity|]. exists x, ((NEWLINE, v) :: n ++ rest). now left.
  - pose proof (small_len _ _ Y). rewrite app_length in L. cbn [length] in L. destruct f as [|f]; [lia|]. rewrite p_simple_S. rewrite <- app_assoc. cbn [app].
    rewrite (small_found _ _ ((LIT 59, v) :: ts ++ e ++ rest) Y) by (exists v, (ts ++ e ++ rest); now left).
    cbn [obind snd fst]. rewrite at_same by reflexivity. destruct (IH f e rest ltac:(lia) E) as (v2 & n & N & P). exists v2, n. split; [auto|].
    pose proof (smalls_open _ _ Ys) as O. destruct ts as [|[k w] ts]; [destruct O|]. cbn [app]. cbn [app] in P.
    transitivity (obind (p_simple f ((k, w) :: ts ++ e ++ rest)) (fun y => Ret (pfst (cons m) y))); [destruct k; try reflexivity; discriminate O|].
    rewrite P. reflexivity.
Qed.

(** ** Heads *)
Lemma ids_found l ts : ids_say l ts -> forall f rest, length ts <= f -> at_kind comma rest = None -> p_ids f (ts ++ rest) = Ret (l, rest).
Proof.
  induction 1 as [s|s l v ts _ IH]; intros f rest L C; cbn [length] in L; (destruct f as [|f]; [lia|]); rewrite p_ids_S; cbn [app]; rewrite id_found; cbn [obind fst snd].
  - now rewrite C.
  - rewrite at_same by reflexivity. rewrite IH by (auto; lia). reflexivity.
Qed.
Lemma display_found l td rest : says 8 (XList l) td -> p_display (td ++ rest) = Ret (XList l, rest).
Proof.
  intros Y. unfold p_display.
  assert (forall g, 14 * length td <= g -> p_atom g (td ++ rest) = Ret (XList l, rest)) as A.
  { intros g L. inversion Y; subst; [lia| |].
    - cbn [length] in L. destruct g; [lia|]. cbn [app]. rewrite p_atom_S. rewrite <- app_assoc. cbn [N.eqb Pos.eqb]. rewrite skip_newlines by assumption. reflexivity.
    - match goal with YY : says_all true l _ |- _ => destruct (proj1 (proj2 says_found) _ _ _ YY) as (O & F) end.
      cbn [length] in L. rewrite !app_length in L. cbn [length] in L.
      destruct g; [lia|]. cbn [app]. rewrite p_atom_S. rewrite <- !app_assoc. cbn [N.eqb Pos.eqb].
      rewrite skip_newlines by assumption. rewrite (opens_skip 0 _ (opens_app 0 ts _ O)).
      rewrite (opens_not_at 0 _ square_close (opens_app 0 ts _ O) eq_refl).
      match goal with N2 : newlines n2 |- _ => rewrite F; [|destruct N2 as [|[k x] ? HH]; [reflexivity|cbn [fst] in HH; subst; reflexivity]
                |destruct N2 as [|[k x] ? HH]; [reflexivity|cbn [fst] in HH; subst; reflexivity]|lia] end.
      cbn [obind fst snd]. rewrite skip_newlines by assumption. reflexivity. }
  assert (exists q, at_kind square_open (td ++ rest) = Some q) as (q & ->).
  { inversion Y; subst; [lia| |]; (eexists; apply at_same; reflexivity). }
  apply A. unfold enough. rewrite app_length. lia.
Qed.
Lemma args_found l ts : args_say l ts -> forall f rest, length ts <= f -> at_kind comma rest = None -> p_args f (ts ++ rest) = Ret (l, rest).
Proof.
  induction 1 as [s v l td Y|s v w l ss td ts Y _ IH]; intros f rest L C; cbn [length] in L; (destruct f as [|f]; [lia|]); rewrite p_args_S; cbn [app]; rewrite id_found; cbn [obind fst snd];
    unfold colon; rewrite expect_found by reflexivity; cbn [obind fst snd].
  - rewrite (display_found _ _ _ Y). cbn [obind fst snd]. now rewrite C.
  - rewrite <- app_assoc. cbn [app]. rewrite (display_found _ _ _ Y). cbn [obind fst snd]. rewrite at_same by reflexivity.
    rewrite app_length in L. cbn [length] in L. rewrite IH by (auto; lia). reflexivity.
Qed.
Lemma cond_found c v w t rest : says 0 c t -> p_cond ((OPEN_PAREN, v) :: t ++ (CLOSE_PAREN, w) :: rest) = Ret (c, rest).
Proof.
  intros Y. unfold p_cond. rewrite expect_found by reflexivity. cbn [obind fst snd]. rewrite (expr_found c t ((CLOSE_PAREN, w) :: rest) Y eq_refl). cbn [obind fst snd].
  apply expect_found. reflexivity.
Qed.
Lemma alias_found a c v rest : p_alias ((ID, a) :: (AS, v) :: (ID, c) :: rest) = Ret ((a, c), rest). Proof. reflexivity. Qed.
Lemma loop_tail_found i op x tt rest : loop_tail i op x tt -> at_kind colon rest = None -> restricted rest = None ->
  p_loop_tail (tt ++ rest) = Ret ((i, (op, x)), rest).
Proof.
  intros Y C R. unfold p_loop_tail. destruct Y as [|i v|i k op x v K]; cbn [app].
  - now rewrite C.
  - rewrite at_same by reflexivity. rewrite id_found. cbn [obind fst snd]. now rewrite R.
  - rewrite at_same by reflexivity. rewrite id_found. cbn [obind fst snd].
    assert (restricted ((k, op) :: (ID, x) :: rest) = Some (op, (ID, x) :: rest)) as ->.
    { cbn [In] in K. repeat (destruct K as [<-|K]; [reflexivity|]). destruct K. }
    rewrite id_found. reflexivity.
Qed.
Lemma for_head_found ids l ti v tl rest : for_ids ids ti -> says_all true l tl -> stops 0 rest -> at_kind comma rest = None ->
  p_for_head (ti ++ (IN_, v) :: tl ++ rest) = Ret ((ids, l), rest).
Proof.
  intros I Y St C. unfold p_for_head. destruct I as [ids ti I|ids x y ti I].
  - assert (at_kind square_open (ti ++ (IN_, v) :: tl ++ rest) = None) as -> by (destruct I; reflexivity).
    rewrite (ids_found _ _ I); [|rewrite app_length; lia|reflexivity]. cbn [obind fst snd]. rewrite (exprs_found _ _ _ Y St C). reflexivity.
  - cbn [app]. rewrite at_same by reflexivity. rewrite <- app_assoc. cbn [app]. rewrite (ids_found _ _ I); [|rewrite app_length; lia|reflexivity].
    cbn [obind fst snd]. unfold square_close. rewrite expect_found by reflexivity. cbn [obind fst snd]. rewrite (exprs_found _ _ _ Y St C). reflexivity.
Qed.
Lemma do_head_found i x y w z tx ty rest : says 0 x tx -> says 0 y ty -> stops 0 rest -> at_kind comma rest = None ->
  p_do_head ((ID, i) :: (LIT 61, w) :: tx ++ (LIT 44, z) :: ty ++ rest) = Ret ((i, (x, y, None)), rest).
Proof.
  intros Y1 Y2 St C. unfold p_do_head. rewrite id_found. cbn [obind fst snd]. unfold equals, comma at 1. rewrite expect_found by reflexivity. cbn [obind fst snd].
  rewrite (expr_found x tx ((LIT 44, z) :: ty ++ rest) Y1 eq_refl). cbn [obind fst snd]. rewrite expect_found by reflexivity. cbn [obind fst snd].
  rewrite (expr_found y ty rest Y2 St). cbn [obind fst snd]. now rewrite C.
Qed.
Lemma do_step_found i x y e w z z' tx ty te rest : says 0 x tx -> says 0 y ty -> says 0 e te -> stops 0 rest ->
  p_do_head ((ID, i) :: (LIT 61, w) :: tx ++ (LIT 44, z) :: ty ++ (LIT 44, z') :: te ++ rest) = Ret ((i, (x, y, Some e)), rest).
Proof.
  intros Y1 Y2 Y3 St. unfold p_do_head. rewrite id_found. cbn [obind fst snd]. unfold equals, comma at 1. rewrite expect_found by reflexivity. cbn [obind fst snd].
  rewrite (expr_found x tx ((LIT 44, z) :: ty ++ (LIT 44, z') :: te ++ rest) Y1 eq_refl). cbn [obind fst snd]. rewrite expect_found by reflexivity. cbn [obind fst snd].
  rewrite (expr_found y ty ((LIT 44, z') :: te ++ rest) Y2 eq_refl). cbn [obind fst snd]. rewrite at_same by reflexivity.
  rewrite (expr_found e te rest Y3 St). reflexivity.
Qed.
Lemma func_head_found n a v w ta rest : args_say a ta -> p_func_head ((ID, n) :: (OPEN_PAREN, v) :: ta ++ (CLOSE_PAREN, w) :: rest) = Ret ((n, a), rest).
Proof.
  intros Y. unfold p_func_head. rewrite id_found. cbn [obind fst snd]. rewrite expect_found by reflexivity. cbn [obind fst snd].
  rewrite (args_found _ _ Y); [|rewrite app_length; lia|reflexivity]. cbn [obind fst snd]. apply expect_found. reflexivity.
Qed.
