(** What the tokens say is found: statements. *)
From Coq Require Import String Ascii List NArith PeanoNat Bool Lia.
From Verif Require Import PyBase LexModel DrelModel PhraseModel PhraseSpec PhraseProofs PhraseProofs2 PhraseProofs3 PhraseProofs4 PhraseProofs5 SentenceModel SentenceSpec SentenceProofs SentenceProofs2.
Import ListNotations.
Open Scope nat_scope.

(** ** The first token *)
Definition begins (k : kind) : bool := line_k k || match k with IF | FOR | DO | LOOP | WITH | REPEAT | FUNCTION => true | _ => false end.
Definition begin (ts : row) : Prop := match ts with [] => False | t :: _ => begins (fst t) = true end.
Lemma begin_app ts r : begin ts -> begin (ts ++ r). Proof. destruct ts; [intros []|auto]. Qed.
Lemma line_begin ts : line_open ts -> begin ts.
Proof. destruct ts as [|[k v] r]; [auto|]. cbn. unfold begins. intros ->. reflexivity. Qed.
Lemma states_begin b o c ts : states b o c ts -> begin ts.
Proof. destruct 1; try reflexivity. apply begin_app, line_begin. eapply smalls_open. eassumption. Qed.
Lemma suite_begin b o c ts : suite b o c ts -> begin ts.
Proof. destruct 1; [eapply states_begin; eassumption|reflexivity]. Qed.
Lemma all_begin b l ts : all_state b l ts -> begin ts.
Proof. destruct 1; [|apply begin_app]; eapply states_begin; eassumption. Qed.
Lemma begin_skip ts : begin ts -> skip_nl ts = ts.
Proof. destruct ts as [|[k v] r]; [intros []|]. destruct k; cbn; auto. discriminate. Qed.
Lemma begin_not_at ts k : begin ts -> begins k = false -> at_kind k ts = None.
Proof.
  intros B F. destruct ts as [|[k' v] r]; [destruct B|]. cbn in B. cbn [at_kind]. destruct (kind_is k k') eqn:E; [|auto].
  apply kind_is_eq in E. subst. congruence.
Qed.
Lemma begin_restricted ts : begin ts -> restricted ts = None.
Proof.
  destruct ts as [|[k v] r]; [intros []|]. cbn [begin fst]. destruct k; try (intros H; vm_compute in H; discriminate H); auto.
  cbn [restricted]. destruct (existsb (N.eqb c) (u "<>")) eqn:E; [|auto]. apply in_char in E. vm_compute in E.
  destruct E as [<-|[<-|[]]]; intros H; vm_compute in H; discriminate H.
Qed.
Lemma apart_stops ts rest : begin ts -> apart ts -> stops 0 (ts ++ rest).
Proof.
  destruct ts as [|[k v] r]; [intros []|]. intros B A. specialize (A k v r eq_refl). cbn [begin fst] in B. cbn [app stops fst].
  destruct k as [ | | | | | | | | | | | | | | | | | | | | | | | | | | | | | | | | | | | | | | | | | | | | | |c]; try reflexivity; try (vm_compute in B; discriminate B); try (exfalso; apply A; cbn [In]; auto 9; fail).
  unfold begins, line_k, opens_k in B. rewrite !orb_false_r, andb_true_r in B. apply orb_true_iff in B. cbn [In] in A.
  destruct B as [B|B]; apply lit_cases in B; cbn [In] in B.
  - destruct B as [<-|[<-|[<-|[]]]]; [reflexivity|exfalso; auto 9|reflexivity].
  - destruct B as [<-|[<-|[]]]; exfalso; auto 9.
Qed.

(** What may stand behind a statement. *)
Definition after (o : bool) (rest : row) : Prop :=
  match rest with [] => True | (k, _) :: _ => k <> NEWLINE /\ (o = true -> k <> ELSE /\ k <> ELSEIF) end.
Lemma after_le o o' rest : (o' = true -> o = true) -> after o rest -> after o' rest.
Proof. destruct rest as [|[k v] r]; [auto|]. cbn. intuition. Qed.
Lemma after_skip o rest : after o rest -> skip_nl rest = rest.
Proof. destruct rest as [|[k v] r]; [auto|]. destruct k; auto. cbn. intros [H _]. contradiction. Qed.
Lemma begin_after o ts rest : begin ts -> after o (ts ++ rest).
Proof.
  destruct ts as [|[k v] r]; [intros []|]. cbn. intros B. split; [|intros _; split]; intros ->; vm_compute in B; discriminate B.
Qed.

(** ** Braces *)
Lemma states_table_not b o c ts rest : states b o c ts -> table_next (ts ++ rest) = false.
Proof.
  assert (forall e r, line_end e -> at_kind colon (e ++ r) = None) as LE by (destruct 1; reflexivity).
  assert (forall m ts r, small_says m ts -> at_kind colon r = None -> table_next (ts ++ r) = false) as SM.
  { intros m ts0 r Y C. destruct Y; try reflexivity.
    - eapply all_table_not; eassumption.
    - rewrite <- app_assoc. eapply all_table_not; [eassumption|]. destruct H as [-> | ->]; reflexivity. }
  destruct 1 as [l ts e Y E| | | | | | | |]; try reflexivity.
  rewrite <- app_assoc. destruct Y as [m ts Y|m l v tm ts Y _]; [eapply SM; [eassumption|auto]|]. rewrite <- app_assoc. eapply SM; [eassumption|reflexivity].
Qed.
Lemma all_state_table_not b l ts rest : all_state b l ts -> table_next (ts ++ rest) = false.
Proof. destruct 1; [|rewrite <- app_assoc]; eapply states_table_not; eassumption. Qed.
Lemma line_ne ts : line_open ts -> ts <> []. Proof. destruct ts; [intros []|discriminate]. Qed.
Lemma states_braces b o c ts : states b o c ts -> braces ts.
Proof.
  assert (forall m ts, small_says m ts -> braces ts) as SM.
  { intros m ts0 Y. destruct Y; try (intros v0 r0 E; discriminate E).
    - eapply all_table_yes; eassumption.
    - apply braces_app; [|eapply all_table_yes; eassumption]. eapply opens_ne, all_opens. eassumption. }
  destruct 1 as [l ts e Y E| | | | | | | |]; try (intros v0 r0 E0; discriminate E0).
  apply braces_app; [exact (line_ne _ (smalls_open _ _ Y))|]. destruct Y as [m ts Y|m l v tm ts Y _]; [eauto|].
  apply braces_app; [exact (line_ne _ (small_open _ _ Y))|eauto].
Qed.

(** ** Statements *)
Lemma stmt_line f ts : line_open ts -> p_stmt (S f) ts = obind (p_simple (S (length ts)) ts) (fun l => need_nl (CSimple (fst l)) (snd l)).
Proof. destruct ts as [|[k v] r]; [intros []|]. rewrite p_stmt_S. destruct k; auto; intros H; vm_compute in H; discriminate H. Qed.

Definition found_s (o : bool) (c : cs) (ts : row) : Prop :=
  forall rest g, after o rest -> 4 * length ts + 1 <= g -> p_stmt g (ts ++ rest) = Ret (c, rest).
Definition found_suite (o : bool) (l : list cs) (ts : row) : Prop :=
  forall rest g, after o rest -> 4 * length ts + 2 <= g -> p_suite g (ts ++ rest) = Ret (l, rest).
Definition found_tail (p : bool) (l : list (cx * list cs)) (els : option (list cs)) (o : bool) (ts : row) : Prop :=
  (p = true -> ts = [] /\ o = true) /\ (forall rest, after o rest -> after false (ts ++ rest)) /\
  forall rest g, after o rest -> 4 * length ts + 1 <= g -> exists q, p_elifs g (ts ++ rest) = Ret (l, q) /\
    match els with
    | None => q = rest /\ forall v r, rest <> (ELSE, v) :: r
    | Some s => exists v t, q = (ELSE, v) :: t ++ rest /\ length t < length ts /\ forall g, 4 * length t + 2 <= g -> p_suite g (t ++ rest) = Ret (s, rest)
    end.
Definition found_block (l : list cs) (ts : row) : Prop :=
  forall v rest g, 4 * length ts + 2 <= g -> p_stmts g (ts ++ (LIT 125, v) :: rest) = Ret (l, (LIT 125, v) :: rest).

Lemma states_found :
  (forall o c ts, states true o c ts -> found_s o c ts) /\
  (forall p l els o ts, tail_says true p l els o ts -> found_tail p l els o ts) /\
  (forall o l ts, suite true o l ts -> found_suite o l ts) /\
  (forall l ts, all_state true l ts -> found_block l ts).
Proof.
  apply (states_mut true).
  - intros l ts e Y E rest g A L. rewrite app_length in L. destruct g as [|g]; [lia|]. rewrite <- app_assoc.
    rewrite (stmt_line g _ (line_app ts _ (smalls_open _ _ Y))).
    destruct (simple_found _ _ Y (S (length (ts ++ e ++ rest))) e rest ltac:(rewrite app_length; lia) E) as (v & n & N & ->).
    cbn [obind fst snd need_nl]. rewrite skip_newlines by assumption. now rewrite (after_skip _ _ A).
  - (* if *)
    intros c s l els v v1 v2 n o1 o tc ts tt Y N U Fs _ (P & Af & Ft) rest g A L. cbn [length] in L. rewrite app_length in L. cbn [length] in L. rewrite !app_length in L.
    destruct g as [|g]; [lia|]. rewrite p_stmt_S. cbn [app]. rewrite <- !app_assoc. cbn [app]. rewrite <- !app_assoc. rewrite (cond_found c v1 v2 tc _ Y).
    cbn [obind fst snd]. rewrite skip_newlines by assumption. rewrite (begin_skip _ (begin_app ts _ (suite_begin _ _ _ _ U))).
    rewrite Fs; [|destruct o1; [destruct (P eq_refl) as [-> ->]; exact A|auto]|lia]. cbn [obind fst snd].
    destruct (Ft rest g A ltac:(lia)) as (q & -> & H). cbn [obind fst snd]. destruct els as [e|].
    + destruct H as (v' & t & -> & Lt & H). rewrite H by lia. reflexivity.
    + destruct H as (-> & NE). destruct rest as [|[k x] r]; [reflexivity|]. destruct k; try reflexivity. exfalso. exact (NE x r eq_refl).
  - (* for *)
    intros ids l s v w o ti tl ts I Y Ap U Fs rest g A L. cbn [length] in L. rewrite app_length in L. cbn [length] in L. rewrite !app_length in L.
    destruct g as [|g]; [lia|]. rewrite p_stmt_S. cbn [app]. rewrite <- !app_assoc. cbn [app]. rewrite <- !app_assoc. pose proof (suite_begin _ _ _ _ U) as B.
    rewrite (for_head_found _ _ _ w _ _ I Y (apart_stops ts rest B (Ap eq_refl)) (begin_not_at _ comma (begin_app ts rest B) eq_refl)).
    cbn [obind fst snd]. rewrite Fs by (auto; lia). reflexivity.
  - (* do *)
    intros i x y s v w z o tx ty ts Y1 Y2 Ap U Fs rest g A L. cbn [length] in L. rewrite app_length in L. cbn [length] in L. rewrite !app_length in L.
    destruct g as [|g]; [lia|]. rewrite p_stmt_S. cbn [app]. rewrite <- !app_assoc. cbn [app]. rewrite <- !app_assoc. pose proof (suite_begin _ _ _ _ U) as B.
    rewrite (do_head_found _ _ _ w z _ _ _ Y1 Y2 (apart_stops ts rest B (Ap eq_refl)) (begin_not_at _ comma (begin_app ts rest B) eq_refl)).
    cbn [obind fst snd]. rewrite Fs by (auto; lia). reflexivity.
  - intros i x y e s v w z z' o tx ty te ts Y1 Y2 Y3 Ap U Fs rest g A L. cbn [length] in L. rewrite app_length in L. cbn [length] in L. rewrite app_length in L. cbn [length] in L. rewrite app_length in L.
    destruct g as [|g]; [lia|]. rewrite p_stmt_S. cbn [app]. rewrite <- !app_assoc. cbn [app]. rewrite <- !app_assoc. cbn [app]. rewrite <- !app_assoc. pose proof (suite_begin _ _ _ _ U) as B.
    rewrite (do_step_found _ _ _ _ w z z' _ _ _ _ Y1 Y2 Y3 (apart_stops ts rest B (Ap eq_refl))).
    cbn [obind fst snd]. rewrite Fs by (auto; lia). reflexivity.
  - (* loop *)
    intros a c i op x s v w o tt ts T U Fs rest g A L. cbn [length] in L. rewrite app_length in L.
    destruct g as [|g]; [lia|]. rewrite p_stmt_S. cbn [app]. rewrite alias_found. cbn [obind fst snd]. rewrite <- !app_assoc. pose proof (suite_begin _ _ _ _ U) as B.
    rewrite (loop_tail_found _ _ _ _ _ T (begin_not_at _ colon (begin_app ts rest B) eq_refl) (begin_restricted _ (begin_app ts rest B))).
    cbn [obind fst snd]. rewrite Fs by (auto; lia). reflexivity.
  - (* with *)
    intros a c s v w n o ts N U Fs rest g A L. cbn [length] in L. rewrite app_length in L.
    destruct g as [|g]; [lia|]. rewrite p_stmt_S. cbn [app]. rewrite alias_found. cbn [obind fst snd]. rewrite <- !app_assoc. pose proof (suite_begin _ _ _ _ U) as B.
    rewrite skip_newlines by assumption. rewrite (begin_skip _ (begin_app ts _ B)). rewrite Fs by (auto; lia). reflexivity.
  - (* repeat *)
    intros s v o ts U Fs rest g A L. cbn [length] in L. destruct g as [|g]; [lia|]. rewrite p_stmt_S. cbn [app]. rewrite Fs by (auto; lia). reflexivity.
  - (* function *)
    intros f args s v v1 v2 o ta ts Y U Fs rest g A L. cbn [length] in L. rewrite app_length in L. cbn [length] in L.
    destruct g as [|g]; [lia|]. rewrite p_stmt_S. cbn [app]. rewrite <- !app_assoc. cbn [app]. rewrite (func_head_found f args v1 v2 ta _ Y).
    cbn [obind fst snd]. rewrite Fs by (auto; lia). reflexivity.
  - (* nothing more *)
    intros p. split; [auto|]. split; [intros rest A; exact (after_le true false rest (fun _ => eq_refl) A)|]. intros rest g A L. destruct g as [|g]; [cbn in L; lia|].
    exists rest. cbn [app]. rewrite p_elifs_S. destruct rest as [|[k v] r]; [split; [auto|split; [auto|discriminate]]|].
    cbn [after] in A. destruct A as (_ & A). destruct (A eq_refl) as (A1 & A2). split; [destruct k; auto; contradiction|]. split; [auto|]. intros v0 r0 [= -> _ _]. contradiction.
  - intros p s v o ts P U Fs. split; [intros ->; discriminate (P eq_refl)|]. split; [intros rest _; split; [discriminate|discriminate]|].
    intros rest g A L. cbn [length] in L. destruct g as [|g]; [lia|]. cbn [app]. rewrite p_elifs_S. exists ((ELSE, v) :: ts ++ rest). split; [auto|].
    exists v, ts. split; [auto|]. split; [cbn; lia|]. intros g0 L0. apply Fs; auto.
  - intros p c s l els v v1 v2 n o1 o tc ts tt P Y N U Fs _ (P1 & Af & Ft). split; [intros ->; discriminate (P eq_refl)|]. split; [intros rest _; split; [discriminate|discriminate]|].
    intros rest g A L. cbn [length] in L. rewrite app_length in L. cbn [length] in L. rewrite !app_length in L.
    destruct g as [|g]; [lia|]. rewrite p_elifs_S. cbn [app]. rewrite <- !app_assoc. cbn [app]. rewrite <- !app_assoc. rewrite (cond_found c v1 v2 tc _ Y).
    cbn [obind fst snd]. rewrite skip_newlines by assumption. rewrite (begin_skip _ (begin_app ts _ (suite_begin _ _ _ _ U))).
    rewrite Fs; [|destruct o1; [destruct (P1 eq_refl) as [-> ->]; exact A|auto]|lia]. cbn [obind fst snd].
    destruct (Ft rest g A ltac:(lia)) as (q & -> & H). cbn [obind fst snd]. exists q. split; [reflexivity|]. destruct els as [e|]; [|auto].
    destruct H as (v' & t & -> & Lt & H). exists v', t. split; [auto|]. split; [|auto]. cbn [length]. rewrite app_length. cbn [length]. rewrite !app_length. lia.
  - (* one *)
    intros c o ts Y Fs rest g A L. destruct g as [|g]; [lia|]. rewrite p_suite_S.
    assert (obind (p_stmt g (ts ++ rest)) (fun x => Ret (pfst (fun c => [c]) x)) = Ret ([c], rest)) as D by (rewrite Fs by (auto; lia); reflexivity).
    destruct (at_kind curly_open (ts ++ rest)) as [q|] eqn:X; [|exact D].
    apply at_kind_Some in X as (v & X). pose proof (states_begin _ _ _ _ Y) as B. destruct ts as [|t ts]; [destruct B|]. cbn [app] in X. injection X as -> <-.
    rewrite (states_braces _ _ _ _ Y v ts eq_refl rest). exact D.
  - (* block *)
    intros l v w n1 n2 ts N1 N2 Y F rest g A L. cbn [length] in L. rewrite app_length in L. rewrite app_length in L. cbn [length] in L.
    destruct g as [|g]; [lia|]. rewrite p_suite_S. cbn [app]. rewrite at_same by reflexivity. rewrite <- !app_assoc. cbn [app].
    rewrite skip_newlines by assumption. pose proof (all_begin _ _ _ Y) as B. rewrite (begin_skip _ (begin_app ts _ B)).
    rewrite (all_state_table_not _ _ _ _ Y). rewrite F by lia. cbn [obind fst snd]. unfold curly_close. rewrite expect_found by reflexivity. cbn [obind fst snd].
    rewrite skip_newlines by assumption. now rewrite (after_skip _ _ A).
  - intros c o ts Y Fs v rest g L. destruct g as [|g]; [lia|]. rewrite p_stmts_S. rewrite Fs; [|split; [discriminate|intros _; split; discriminate]|lia].
    cbn [obind fst snd]. unfold curly_close. rewrite at_same by reflexivity. reflexivity.
  - intros c o l tc ts Y Fs Ys F v rest g L. rewrite app_length in L. pose proof (states_begin _ _ _ _ Y) as B0. pose proof (all_begin _ _ _ Ys) as B.
    assert (1 <= length tc) by (destruct tc; [destruct B0|cbn; lia]).
    destruct g as [|g]; [lia|]. rewrite p_stmts_S. rewrite <- app_assoc. rewrite Fs; [|apply begin_after; exact B|lia].
    cbn [obind fst snd]. rewrite (begin_not_at _ curly_close (begin_app ts _ B) eq_refl). rewrite F by lia. reflexivity.
Qed.

Lemma input_found l ts : all_state true l ts -> forall g, 4 * length ts + 2 <= g -> p_input g ts = Ret l.
Proof.
  induction 1 as [c o ts Y|c o l tc ts Y Ys IH]; intros g L; (destruct g as [|g]; [lia|]); rewrite p_input_S.
  - pose proof (proj1 states_found _ _ _ Y [] g I ltac:(lia)) as E. rewrite app_nil_r in E. rewrite E. reflexivity.
  - rewrite app_length in L. pose proof (states_begin _ _ _ _ Y) as B0. pose proof (all_begin _ _ _ Ys) as B.
    assert (1 <= length tc) by (destruct tc; [destruct B0|cbn; lia]).
    pose proof (begin_after o ts [] B) as A. rewrite app_nil_r in A.
    rewrite (proj1 states_found _ _ _ Y ts g A) by lia. cbn [obind fst snd]. destruct ts as [|t ts]; [destruct B|]. rewrite IH by lia. reflexivity.
Qed.
Lemma method_found l ts : method_says true l ts -> method ts = Ret l.
Proof.
  intros (n & t & N & Y & ->). unfold method. rewrite skip_newlines by assumption. rewrite (begin_skip t (all_begin _ _ _ Y)).
  apply input_found; [exact Y|]. rewrite app_length. lia.
Qed.

(** ** The parser ends *)
Lemma states_len b o c ts : states b o c ts -> 1 <= length ts.
Proof. intros Y. apply states_begin in Y. destruct ts; [destruct Y|cbn; lia]. Qed.
Lemma stmt_len f ts c r : p_stmt f ts = Ret (c, r) -> length r < length ts.
Proof. intros E. apply (proj1 (sound_stmts f)) in E as (o & t & -> & Y). apply states_len in Y. rewrite app_length. lia. Qed.
Lemma suite_len f ts c r : p_suite f ts = Ret (c, r) -> length r < length ts.
Proof.
  intros E. destruct (sound_stmts f) as (_ & _ & Su & _). apply Su in E as (o & t & -> & Y). apply suite_begin in Y. rewrite app_length.
  destruct t; [destruct Y|cbn; lia].
Qed.
Lemma elifs_len f ts c r : p_elifs f ts = Ret (c, r) -> length r <= length ts.
Proof. intros E. destruct (sound_stmts f) as (_ & El & _). apply El in E as (t & -> & _). rewrite app_length. lia. Qed.
Lemma expr_fine ts : fine (p_expr ts).
Proof. apply (proj1 (ends_all _)). unfold enough. cbn [num]. lia. Qed.
Lemma exprs_fine ts : fine (p_exprs ts).
Proof. destruct (ends_all (enough ts)) as (_ & _ & _ & _ & L & _). apply L. unfold enough. lia. Qed.
Lemma display_fine ts : fine (p_display ts).
Proof. unfold p_display. destruct (at_kind square_open ts); [|apply fine_syntax]. destruct (ends_all (enough ts)) as (_ & _ & _ & A & _). apply A. unfold enough. lia. Qed.
Lemma id_fine ts : fine (p_id ts).
Proof. destruct ts as [|[k v] r]; [discriminate|]. destruct k; discriminate. Qed.
Lemma id_len ts s r : p_id ts = Ret (s, r) -> length r < length ts.
Proof. intros ->%id_sound. cbn; lia. Qed.
Lemma expr_len ts s r : p_expr ts = Ret (s, r) -> length r < length ts.
Proof. apply rule_len. Qed.
Lemma display_len ts s r : p_display ts = Ret (s, r) -> length r < length ts.
Proof. unfold p_display. destruct (at_kind _ _); [apply atom_len|discriminate]. Qed.
Lemma dots_fine f : forall ts, length ts < f -> fine (p_dots f ts).
Proof.
  induction f as [|f IH]; intros ts L; [lia|]. rewrite p_dots_S. apply fine_bind; [apply fine_expect|]. intros [x r] E1%expect_len. cbn [fst snd].
  apply fine_bind; [apply id_fine|]. intros [x2 r2] E2%id_len. cbn [fst snd]. apply fine_bind; [apply fine_expect|]. intros [x3 r3] E3%expect_len. cbn [fst snd].
  apply fine_bind; [apply expr_fine|]. intros [x4 r4] E4%expr_len. cbn [fst snd]. destruct (at_kind comma r4) as [r5|] eqn:E5; [|apply fine_Ret]. apply at_len in E5.
  apply fine_bind; [apply IH; lia|]. intros; apply fine_Ret.
Qed.
Lemma ids_fine f : forall ts, length ts < f -> fine (p_ids f ts).
Proof.
  induction f as [|f IH]; intros ts L; [lia|]. rewrite p_ids_S. apply fine_bind; [apply id_fine|]. intros [x r] E1%id_len. cbn [fst snd].
  destruct (at_kind comma r) as [r5|] eqn:E5; [|apply fine_Ret]. apply at_len in E5. apply fine_bind; [apply IH; lia|]. intros; apply fine_Ret.
Qed.
Lemma args_fine f : forall ts, length ts < f -> fine (p_args f ts).
Proof.
  induction f as [|f IH]; intros ts L; [lia|]. rewrite p_args_S. apply fine_bind; [apply id_fine|]. intros [x r] E1%id_len. cbn [fst snd].
  apply fine_bind; [apply fine_expect|]. intros [x3 r3] E3%expect_len. cbn [fst snd]. apply fine_bind; [apply display_fine|]. intros [x4 r4] E4%display_len. cbn [fst snd].
  destruct (at_kind comma r4) as [r5|] eqn:E5; [|apply fine_Ret]. apply at_len in E5. apply fine_bind; [apply IH; lia|]. intros; apply fine_Ret.
Qed.
Lemma small_fine ts : fine (p_small ts).
Proof.
  assert (fine (match fancy ts with
      | Some (cat, r) =>
          obind (p_dots (S (length r)) r) (fun l => expect CLOSE_PAREN (MFancy cat (fst l)) (snd l))
      | None =>
          obind (p_exprs ts) (fun x =>
          match snd x with
          | (AUGOP, v) :: r => obind (p_exprs r) (fun y => Ret (pfst (MAssign (fst x) v) y))
          | (LIT c, v) :: r =>
              if (c =? 61)%N then obind (p_exprs r) (fun y => Ret (pfst (MAssign (fst x) v) y))
              else Ret (pfst MExprs x)
          | _ => Ret (pfst MExprs x)
          end)
      end)) as D.
  { destruct (fancy ts) as [[cat r]|].
    - apply fine_bind; [apply dots_fine; lia|]. intros; apply fine_expect.
    - apply fine_bind; [apply exprs_fine|]. intros [x r] _. cbn [fst snd].
      assert (forall v r, fine (obind (p_exprs r) (fun y => Ret (pfst (MAssign x v) y)))) as D2 by (intros; apply fine_bind; [apply exprs_fine|]; intros; apply fine_Ret).
      destruct r as [|[k v] r]; [apply fine_Ret|]. destruct k; try apply fine_Ret; [apply D2|]. destruct (_ =? 61)%N; [apply D2|apply fine_Ret]. }
  destruct ts as [|[k v] ts]; [exact D|]. destruct k; try exact D; try apply fine_Ret. cbn [p_small]. apply fine_bind; [apply expr_fine|]. intros; apply fine_Ret.
Qed.
Lemma small_rest ts m r : p_small ts = Ret (m, r) -> length r < length ts.
Proof. intros (t & -> & Y)%small_sound. apply small_len in Y. rewrite app_length. lia. Qed.
Lemma simple_fine f : forall ts, length ts < f -> fine (p_simple f ts).
Proof.
  induction f as [|f IH]; intros ts L; [lia|]. rewrite p_simple_S. apply fine_bind; [apply small_fine|]. intros [x r] E1%small_rest. cbn [fst snd].
  destruct (at_kind semicolon r) as [r5|] eqn:E5; [|apply fine_Ret]. apply at_len in E5.
  assert (fine (obind (p_simple f r5) (fun y => Ret (pfst (cons x) y)))) as D by (apply fine_bind; [apply IH; lia|]; intros; apply fine_Ret).
  destruct r5 as [|[k v] r5]; [exact D|]. destruct k; try exact D. apply fine_Ret.
Qed.
Lemma cond_fine ts : fine (p_cond ts).
Proof.
  unfold p_cond. apply fine_bind; [apply fine_expect|]. intros [x r] _. cbn [fst snd]. apply fine_bind; [apply expr_fine|]. intros; apply fine_expect.
Qed.
Lemma cond_len ts c r : p_cond ts = Ret (c, r) -> length r < length ts.
Proof. intros (v & w & t & -> & _)%cond_sound. cbn [length]. rewrite app_length. cbn [length]. lia. Qed.
Lemma alias_fine ts : fine (p_alias ts).
Proof. destruct ts as [|[k v] [|[k2 v2] [|[k3 v3] r]]]; try (destruct k; try discriminate; destruct k2; try discriminate; destruct k3); try discriminate; destruct k; try discriminate; destruct k2; discriminate. Qed.
Lemma alias_len ts a r : p_alias ts = Ret (a, r) -> length r < length ts.
Proof. destruct a. intros (v & ->)%alias_sound. cbn; lia. Qed.
Lemma loop_tail_fine ts : fine (p_loop_tail ts).
Proof.
  unfold p_loop_tail. destruct (at_kind colon ts); [|apply fine_Ret]. apply fine_bind; [apply id_fine|]. intros [x r] _. cbn [fst snd].
  destruct (restricted r) as [[op r2]|]; [|apply fine_Ret]. apply fine_bind; [apply id_fine|]. intros; apply fine_Ret.
Qed.
Lemma loop_tail_len ts h r : p_loop_tail ts = Ret (h, r) -> length r <= length ts.
Proof. destruct h as [i [op x]]. intros (t & -> & _)%loop_tail_sound. rewrite app_length. lia. Qed.
Lemma for_head_fine ts : fine (p_for_head ts).
Proof.
  unfold p_for_head. apply fine_bind.
  - destruct (at_kind square_open ts) as [r|]; [|apply ids_fine; lia]. apply fine_bind; [apply ids_fine; lia|]. intros; apply fine_expect.
  - intros [x r] _. cbn [fst snd]. destruct r as [|[k v] r]; [apply fine_syntax|]. destruct k; try apply fine_syntax. apply fine_bind; [apply exprs_fine|]. intros; apply fine_Ret.
Qed.
Lemma for_head_len ts h r : p_for_head ts = Ret (h, r) -> length r < length ts.
Proof. destruct h. intros (ti & v & tl & -> & _)%for_head_sound. rewrite app_length. cbn [length]. rewrite app_length. lia. Qed.
Lemma do_head_fine ts : fine (p_do_head ts).
Proof.
  unfold p_do_head. apply fine_bind; [apply id_fine|]. intros [x r] _. cbn [fst snd]. apply fine_bind; [apply fine_expect|]. intros [x2 r2] _. cbn [fst snd].
  apply fine_bind; [apply expr_fine|]. intros [x3 r3] _. cbn [fst snd]. apply fine_bind; [apply fine_expect|]. intros [x4 r4] _. cbn [fst snd].
  apply fine_bind; [apply expr_fine|]. intros [x5 r5] _. cbn [fst snd]. destruct (at_kind comma r5); [|apply fine_Ret]. apply fine_bind; [apply expr_fine|]. intros; apply fine_Ret.
Qed.
Lemma do_head_len ts h r : p_do_head ts = Ret (h, r) -> length r < length ts.
Proof.
  destruct h as [i [[x y] e]]. intros (w & z & tx & ty & te & -> & _)%do_head_sound. cbn [length]. rewrite app_length. cbn [length]. rewrite !app_length. lia.
Qed.
Lemma func_head_fine ts : fine (p_func_head ts).
Proof.
  unfold p_func_head. apply fine_bind; [apply id_fine|]. intros [x r] _. cbn [fst snd]. apply fine_bind; [apply fine_expect|]. intros [x2 r2] _. cbn [fst snd].
  apply fine_bind; [apply args_fine; lia|]. intros; apply fine_expect.
Qed.
Lemma func_head_len ts h r : p_func_head ts = Ret (h, r) -> length r < length ts.
Proof. destruct h as [n a]. intros (v & w & ta & -> & _)%func_head_sound. cbn [length]. rewrite app_length. cbn [length]. lia. Qed.
Lemma need_nl_fine {A} (x : A) ts : fine (need_nl x ts).
Proof. destruct ts as [|[k v] r]; [discriminate|]. destruct k; discriminate. Qed.

Definition ends_s (f : nat) : Prop :=
  (forall ts, 4 * length ts + 1 <= f -> fine (p_stmt f ts)) /\
  (forall ts, 4 * length ts + 1 <= f -> fine (p_elifs f ts)) /\
  (forall ts, 4 * length ts + 2 <= f -> fine (p_suite f ts)) /\
  (forall ts, 4 * length ts + 2 <= f -> fine (p_stmts f ts)).
Lemma ends_stmts f : ends_s f.
Proof.
  induction f as [|f (St & El & Su & Ss)]; [repeat apply conj; intros; lia|]. repeat apply conj.
  - intros ts B. rewrite p_stmt_S.
    assert (fine (obind (p_simple (S (length ts)) ts) (fun l => need_nl (CSimple (fst l)) (snd l)))) as D by (apply fine_bind; [apply simple_fine; lia|]; intros; apply need_nl_fine).
    destruct ts as [|[k v] ts]; [exact D|]. cbn [length] in B. kinds_of k; try exact D; clear D.
    + apply fine_bind; [apply do_head_fine|]. intros [[i [[x y] e]] r] E%do_head_len. cbn [fst snd]. apply fine_bind; [apply Su; lia|]. intros; apply fine_Ret.
    + apply fine_bind; [apply for_head_fine|]. intros [h r] E%for_head_len. cbn [fst snd]. apply fine_bind; [apply Su; lia|]. intros; apply fine_Ret.
    + apply fine_bind; [apply alias_fine|]. intros [h r] E%alias_len. cbn [fst snd]. apply fine_bind; [apply loop_tail_fine|]. intros [[i [op x]] r2] E2%loop_tail_len. cbn [fst snd].
      apply fine_bind; [apply Su; lia|]. intros; apply fine_Ret.
    + apply fine_bind; [apply Su; lia|]. intros; apply fine_Ret.
    + apply fine_bind; [apply alias_fine|]. intros [h r] E%alias_len. cbn [fst snd]. pose proof (skip_len r). apply fine_bind; [apply Su; lia|]. intros; apply fine_Ret.
    + apply fine_bind; [apply cond_fine|]. intros [h r] E%cond_len. cbn [fst snd]. pose proof (skip_len r). apply fine_bind; [apply Su; lia|]. intros [s r2] E2%suite_len. cbn [fst snd].
      apply fine_bind; [apply El; lia|]. intros [l r3] E3%elifs_len. cbn [fst snd]. destruct r3 as [|[k w] r3]; [apply fine_Ret|]. destruct k; try apply fine_Ret. cbn [length] in E3.
      apply fine_bind; [apply Su; lia|]. intros; apply fine_Ret.
    + apply fine_bind; [apply func_head_fine|]. intros [h r] E%func_head_len. cbn [fst snd]. apply fine_bind; [apply Su; lia|]. intros; apply fine_Ret.
  - intros ts B. rewrite p_elifs_S. destruct ts as [|[k v] ts]; [apply fine_Ret|]. cbn [length] in B. destruct k; try apply fine_Ret.
    apply fine_bind; [apply cond_fine|]. intros [h r] E%cond_len. cbn [fst snd]. pose proof (skip_len r). apply fine_bind; [apply Su; lia|]. intros [s r2] E2%suite_len. cbn [fst snd].
    apply fine_bind; [apply El; lia|]. intros; apply fine_Ret.
  - intros ts B. rewrite p_suite_S.
    assert (fine (obind (p_stmt f ts) (fun x => Ret (pfst (fun c => [c]) x)))) as D by (apply fine_bind; [apply St; lia|]; intros; apply fine_Ret).
    destruct (at_kind curly_open ts) as [q|] eqn:X; [|exact D]. destruct (table_next (skip_nl q)); [exact D|]. apply at_len in X. pose proof (skip_len q).
    apply fine_bind; [apply Ss; lia|]. intros [l r] _. cbn [fst snd]. apply fine_bind; [apply fine_expect|]. intros; apply fine_Ret.
  - intros ts B. rewrite p_stmts_S. apply fine_bind; [apply St; lia|]. intros [x r] E%stmt_len. cbn [fst snd]. destruct (at_kind curly_close r); [apply fine_Ret|].
    apply fine_bind; [apply Ss; lia|]. intros; apply fine_Ret.
Qed.
Lemma input_fine f : forall ts, 4 * length ts + 2 <= f -> fine (p_input f ts).
Proof.
  induction f as [|f IH]; intros ts L; [lia|]. rewrite p_input_S. apply fine_bind; [apply (proj1 (ends_stmts f)); lia|]. intros [x r] E%stmt_len. cbn [fst snd].
  destruct r as [|t r]; [apply fine_Ret|]. apply fine_bind; [apply IH; lia|]. intros; apply fine_Ret.
Qed.

Lemma p_expr_plain ts : plain (p_expr ts). Proof. apply (proj1 (plain_all _)). Qed.
Lemma p_exprs_plain ts : plain (p_exprs ts). Proof. destruct (plain_all (enough ts)) as (_ & _ & _ & _ & L & _). apply L. Qed.
Lemma p_display_plain ts : plain (p_display ts).
Proof. unfold p_display. destruct (at_kind _ _); [|apply plain_syntax]. destruct (plain_all (enough ts)) as (_ & _ & _ & A & _). apply A. Qed.
Lemma p_id_plain ts : plain (p_id ts).
Proof. destruct ts as [|[k v] r]; [apply plain_syntax|]. destruct k; try apply plain_syntax; apply plain_Ret. Qed.
Lemma need_nl_plain {A} (x : A) ts : plain (need_nl x ts).
Proof. destruct ts as [|[k v] r]; [apply plain_syntax|]. destruct k; try apply plain_syntax; apply plain_Ret. Qed.
Lemma p_alias_plain ts : plain (p_alias ts).
Proof.
  destruct ts as [|[k v] r]; [apply plain_syntax|]. destruct k; try apply plain_syntax. destruct r as [|[k v2] r]; [apply plain_syntax|]. destruct k; try apply plain_syntax.
  destruct r as [|[k v3] r]; [apply plain_syntax|]. destruct k; try apply plain_syntax. apply plain_Ret.
Qed.
Ltac pl := repeat first [apply p_expr_plain | apply p_exprs_plain | apply p_display_plain | apply p_id_plain | apply need_nl_plain | apply p_alias_plain | plain_step].
Lemma dots_plain f : forall ts, plain (p_dots f ts). Proof. induction f as [|f IH]; intros ts; [apply plain_fuel|]. rewrite p_dots_S. pl. Qed.
Lemma ids_plain f : forall ts, plain (p_ids f ts). Proof. induction f as [|f IH]; intros ts; [apply plain_fuel|]. rewrite p_ids_S. pl. Qed.
Lemma args_plain f : forall ts, plain (p_args f ts). Proof. induction f as [|f IH]; intros ts; [apply plain_fuel|]. rewrite p_args_S. pl. Qed.
Lemma small_plain ts : plain (p_small ts).
Proof. pose proof dots_plain. unfold p_small. pl. Qed.
Lemma simple_plain f : forall ts, plain (p_simple f ts).
Proof. pose proof small_plain. induction f as [|f IH]; intros ts; [apply plain_fuel|]. rewrite p_simple_S. pl. Qed.
Lemma cond_plain ts : plain (p_cond ts). Proof. unfold p_cond. pl. Qed.
Lemma loop_tail_plain ts : plain (p_loop_tail ts). Proof. unfold p_loop_tail. pl. Qed.
Lemma for_head_plain ts : plain (p_for_head ts). Proof. pose proof ids_plain. unfold p_for_head. pl. Qed.
Lemma do_head_plain ts : plain (p_do_head ts). Proof. unfold p_do_head. pl. Qed.
Lemma func_head_plain ts : plain (p_func_head ts). Proof. pose proof args_plain. unfold p_func_head. pl. Qed.
Lemma stmts_plain f : (forall ts, plain (p_stmt f ts)) /\ (forall ts, plain (p_elifs f ts)) /\ (forall ts, plain (p_suite f ts)) /\ (forall ts, plain (p_stmts f ts)).
Proof.
  pose proof simple_plain. pose proof cond_plain. pose proof loop_tail_plain. pose proof for_head_plain. pose proof do_head_plain. pose proof func_head_plain.
  induction f as [|f (St & El & Su & Ss)]; [repeat apply conj; intros; apply plain_fuel|]. repeat apply conj; intros ts.
  - rewrite p_stmt_S. pl.
  - rewrite p_elifs_S. pl.
  - rewrite p_suite_S. pl.
  - rewrite p_stmts_S. pl.
Qed.
Lemma input_plain f : forall ts, plain (p_input f ts).
Proof. induction f as [|f IH]; intros ts; [apply plain_fuel|]. rewrite p_input_S. pose proof (proj1 (stmts_plain f)). pl. Qed.
Lemma method_ends ts : (exists l, method ts = Ret l) \/ method ts = Raise SyntaxErr.
Proof.
  unfold method. pose proof (skip_len ts). pose proof (input_fine (4 * S (length ts)) (skip_nl ts) ltac:(lia)) as F.
  pose proof (input_plain (4 * S (length ts)) (skip_nl ts)) as P. destruct (p_input _ _) as [l|e]; [left; eauto|right].
  destruct (P e eq_refl) as [-> | ->]; [reflexivity|]. exfalso. now apply F.
Qed.
