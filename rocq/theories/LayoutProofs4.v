(** Every method is laid out as it asks for. *)
From Coq Require Import String Ascii List NArith PeanoNat Bool Lia.
From Verif Require Import PyBase PyFacts DrelModel LayoutSpec LayoutProofs LayoutProofs2 LayoutProofs3.
Import ListNotations.
Open Scope string_scope. Open Scope list_scope. Open Scope nat_scope.

Section Methods.
  Context (e : env) (FE : flat_env e).
  Notation T := (traverse e).
  Notation tcs := (tcs e).
  Lemma with_keep alias cat : keeps (with_alias e alias cat).
  Proof.
    intros st0 [A B]. split; [|exact B]. unfold with_alias. cbn [set_ids s_ids]. intros a c i b I. apply In_dset in I as [E|I].
    - injection E as _ -> _. destruct (dmem _ _ _); reflexivity.
    - destruct (find _ _) as [kv|]; [apply In_ddel in I|]; eapply A, I.
  Qed.
  Lemma if_run c s elifs els : Forall tcs s -> Forall (fun cl => Forall tcs (snd cl)) elifs -> match els with Some l => Forall tcs l | None => True end -> tcs (CIf c s elifs els).
  Proof.
    intros Hs He Hl S. cbn [flat_cs] in S. apply andb_true_iff in S as [S S5]. apply andb_true_iff in S as [S S4]. apply andb_true_iff in S as [S S3]. apply andb_true_iff in S as [S1 S2].
    cbn [bs]. apply one_run. cbn [traverse shape]. eapply Runs_bind; [apply (expr e FE c S1)|]. intros ct W.
    match goal with |- Runs (fun st => ?b) _ => idtac end.
    cbv zeta. apply (Runs_at (fun st0 => tbind (T (statements (map bs s))) (fun t =>
        tbind (elseifs T (sapp [u "if "; ct; u ":"; indented t]) (map (fun cl => (be (fst cl), statements (map bs (snd cl)))) elifs)) (fun out =>
        match option_map (fun l => statements (map bs l)) els with
        | None => tmod (set_inif (s_inif st0)) (tret out)
        | Some b => tbind (T b) (fun t2 => tmod (set_inif (s_inif st0)) (tret (sapp [out; nl; u "else:"; indented t2])))
        end))) (set_inif true)); [kept|]. intros st0.
    eapply Runs_bind; [apply (stmts_run e s Hs S2 S3)|]. intros t [L _].
    assert (E : sapp [u "if "; ct; u ":"; indented t] = (u "if " ++ ct ++ u ":") ++ indented t) by (unfold sapp; cbn [concat]; rewrite app_nil_r, <- !app_assoc; reflexivity).
    rewrite E. eapply Runs_bind; [apply (elifs_run e FE elifs He S4 _ [Opens (u "if") (flat_map shape s)])|].
    { apply (head_laid _ ct t _ (u "if ")); auto; [closed|apply Wd_flat, W|apply shapes_ne; assumption]. }
    intros out LO. rewrite app_assoc. destruct els as [l|]; cbn [option_map].
    - apply andb_true_iff in S5 as [S5 S6]. eapply Runs_bind; [apply (stmts_run e l Hl S5 S6)|]. intros t2 [L2 _]. apply Runs_mod; [kept|]. apply Runs_ret.
      assert (E2 : sapp [out; nl; u "else:"; indented t2] = out ++ nl ++ (u "else:" ++ indented t2)) by (unfold sapp; cbn [concat]; rewrite app_nil_r, <- ?app_assoc; reflexivity).
      rewrite E2. apply laid_app; [exact LO|]. change (u "else") with (first_word (u "else:")). apply laid_head; try exact L2; try discriminate; try reflexivity. apply shapes_ne; assumption.
    - apply Runs_mod; [kept|]. apply Runs_ret. rewrite app_nil_r. exact LO.
  Qed.
  Lemma for_run ids l s : Forall tcs s -> tcs (CFor ids l s).
  Proof.
    intros Hs S. cbn [flat_cs] in S. apply andb_true_iff in S as [S S4]. apply andb_true_iff in S as [S S3]. apply andb_true_iff in S as [S1 S2].
    cbn [bs]. apply one_run. cbn [traverse shape]. apply Runs_mod; [kept|]. cbv zeta.
    eapply Runs_bind; [apply (Runs_commas _ (fun x => flat x = true))|].
    { pose proof (exprs e FE l S2) as F. revert F. generalize (map be l). induction 1; constructor; auto. eapply Runs_bind; [eassumption|]. intros z W. apply Runs_ret. flats. }
    intros out (xs & FX & _ & ->). apply Runs_mod; [kept|]. eapply Runs_bind; [apply (stmts_run e s Hs S3 S4)|]. intros t [L _]. apply Runs_ret.
    pose proof (commaed_flat (u "copy(") xs eq_refl FX) as FC. set (C := commaed (u "copy(") xs) in *. set (X := concat (map (fun v => v ++ u ",") ids)).
    assert (FXx : flat X = true). { apply flat_concat. rewrite Forall_forall. intros y I. apply in_map_iff in I as (v & <- & I). rewrite forallb_forall in S1. rewrite flat_app, (S1 v I). reflexivity. }
    assert (H : exists Y, drop_last (u "for " ++ X) ++ u " in " = u "for " ++ Y /\ Y <> [] /\ flat Y = true).
    { clearbody X. destruct X as [|x X]; [exists (u "in "); repeat split; discriminate|]. rewrite drop_app by discriminate. exists (drop_last (x :: X) ++ u " in ").
      rewrite app_assoc. split; [reflexivity|]. split; [destruct (drop_last (x :: X)); discriminate|]. rewrite flat_app. apply andb_true_iff. split; [apply flat_removelast, FXx|reflexivity]. }
    destruct H as (Y & -> & NY & FY).
    assert (E : sapp [drop_last ((u "for " ++ Y) ++ C); u ":"; indented t] = (u "for " ++ drop_last (Y ++ C) ++ u ":") ++ indented t).
    { rewrite <- (app_assoc (u "for ")), drop_app by (destruct Y; [congruence|discriminate]). unfold sapp. cbn [concat]. rewrite app_nil_r, <- !app_assoc. reflexivity. }
    rewrite E. apply (head_laid _ (drop_last (Y ++ C)) t _ (u "for ")); auto; [closed| |apply shapes_ne; assumption].
    apply flat_removelast. flats.
  Qed.
  Lemma do_run id a b c s : Forall tcs s -> tcs (CDo id a b c s).
  Proof.
    intros Hs S. cbn [flat_cs] in S. apply andb_true_iff in S as [S S6]. apply andb_true_iff in S as [S S5]. apply andb_true_iff in S as [S S4]. apply andb_true_iff in S as [S S3]. apply andb_true_iff in S as [S1 S2].
    cbn [bs]. apply one_run. cbn [traverse shape]. eapply Runs_bind; [apply (expr e FE a S2)|]. intros t1 W1. eapply Runs_bind; [apply (expr e FE b S3)|]. intros t2 W2.
    apply Runs_bind with (P := Wd).
    { destruct c as [c|]; [apply (expr e FE c S4)|apply Runs_ret; closed]. }
    intros t3 W3. eapply Runs_bind; [apply (stmts_run e s Hs S5 S6)|]. intros t [L _]. apply Runs_ret.
    assert (E : sapp [u "for "; id; u " in range("; t1; u ","; t2; u "+1,"; t3; u "):"; indented t] = (u "for " ++ (id ++ u " in range(" ++ t1 ++ u "," ++ t2 ++ u "+1," ++ t3 ++ u ")") ++ u ":") ++ indented t).
    { unfold sapp; cbn [concat]. rewrite app_nil_r, <- !app_assoc. reflexivity. }
    rewrite E. apply (head_laid _ (id ++ u " in range(" ++ t1 ++ u "," ++ t2 ++ u "+1," ++ t3 ++ u ")") t _ (u "for ")); auto; [closed|flats|apply shapes_ne; assumption].
  Qed.
  Lemma loop_run alias cat idx op var s : Forall tcs s -> tcs (CLoop alias cat idx op var s).
  Proof.
    intros Hs S. cbn [flat_cs] in S. apply andb_true_iff in S as [S S5]. apply andb_true_iff in S as [S S4]. apply andb_true_iff in S as [S S3]. apply andb_true_iff in S as [S1 S2].
    cbn [bs]. apply one_run. cbn [traverse shape]. destruct (negb (dmem str_eqb cat (e_loopable e))); [apply Runs_raise|].
    intros st0 s0 st' I E. cbv zeta in E. destruct (e_key e cat) as [key|] eqn:K; [|discriminate E]. apply (f_key _ FE) in K.
    assert (FI : flat (loop_index idx (S (length (s_ids st0)))) = true).
    { unfold loop_index. destruct idx; [rewrite flat_app, dec_flat; reflexivity|exact S1]. }
    refine (Runs_bind _ _ _ (fun t => laid t (rows (given op) ++ [Opens (u "for") (flat_map shape s)])) (stmts_run e s Hs S4 S5) _ _ _ _ _ E).
    - intros t [L _]. apply Runs_ret. apply rows_laid; auto. apply shapes_ne; assumption.
    - destruct I as [A B]. split; [|exact B]. cbn [depend set_deps set_ids s_ids]. intros a c i b J. apply In_dset in J as [Ei|J]; [injection Ei as _ -> _; exact FI|eapply A, J].
  Qed.
  Theorem cs_run s : tcs s.
  Proof.
    apply cs_all; clear s.
    - intros l S. cbn [flat_cs] in S. apply andb_true_iff in S as [_ S]. cbn [bs shape].
      change (T (AStmts (map bm l))) with (lines T [] (map bm l)). rewrite flat_map_concat_map. apply (Runs_lines T (map bm l) (map small_shape l)) with (sh0 := []); [|apply done_nil].
      induction l as [|m l IH]; cbn [map]; [constructor|]. cbn [forallb] in S. apply andb_true_iff in S as [S1 S2]. constructor; [apply small_run; assumption|exact (IH S2)].
    - apply if_run. - apply for_run. - apply do_run. - apply loop_run.
    - intros alias cat s Hs S. cbn [flat_cs] in S. apply andb_true_iff in S as [S1 S2]. cbn [bs shape]. apply one_run. cbn [traverse]. apply Runs_mod; [apply with_keep|].
      eapply Runs_weak; [apply (stmts_run e s Hs S1 S2)|]. intros t [L _]. exact L.
    - intros s Hs S. cbn [flat_cs] in S. apply andb_true_iff in S as [S1 S2]. cbn [bs shape]. apply one_run. cbn [traverse]. eapply Runs_bind; [apply (stmts_run e s Hs S1 S2)|]. intros t [L _]. apply Runs_ret.
      unfold sapp. cbn [concat]. rewrite app_nil_r. change (u "while") with (first_word (u "while True:")). apply laid_head; try exact L; try discriminate; try reflexivity. apply shapes_ne; assumption.
    - intros f args s Hs S. cbn [flat_cs] in S. apply andb_true_iff in S as [S S4]. apply andb_true_iff in S as [S S3]. apply andb_true_iff in S as [S1 S2].
      cbn [bs shape]. apply one_run. cbn [traverse]. eapply Runs_bind; [apply (stmts_run e s Hs S3 S4)|]. intros t [L _]. apply Runs_ret.
      apply word_Wd in S1. destruct S1 as [W1 W2]. set (A := concat (map (fun a => a ++ u ",") args)).
      assert (FA : flat A = true). { apply flat_concat. rewrite Forall_forall. intros y I. apply in_map_iff in I as (v & <- & I). rewrite forallb_forall in S2. rewrite flat_app, (S2 v I). reflexivity. }
      assert (LT : laid (sapp [t; nl; u "return "; f]) (flat_map shape s ++ [Line])).
      { unfold sapp. cbn [concat]. rewrite app_nil_r. apply laid_app; [exact L|]. apply laid_line. split; [apply St_app; [closed|flats]|apply En_app; [reflexivity|exact W2]]. }
      assert (E : sapp [u "def "; f; u " ("; A; u "ciffile):"; indented (sapp [t; nl; u "return "; f])] = (u "def " ++ (f ++ u " (" ++ A ++ u "ciffile)") ++ u ":") ++ indented (sapp [t; nl; u "return "; f])).
      { set (B := indented (sapp [t; nl; u "return "; f])). unfold sapp; cbn [concat]. rewrite app_nil_r, <- !app_assoc. reflexivity. }
      rewrite E. apply (head_laid _ (f ++ u " (" ++ A ++ u "ciffile)") _ _ (u "def ")); auto; [closed|flats|]. destruct (flat_map shape s); discriminate.
  Qed.
  Theorem method_run l : forallb flat_cs l = true -> Runs (T (binput l)) (done (flat_map shape l)).
  Proof.
    intros S. unfold binput. change (T (AStmts (concat (map (fun s => spliced (bs s)) l)))) with (lines T [] (concat (map (fun s => spliced (bs s)) l))).
    assert (X : forall out sh0, done sh0 out -> Runs (lines T out (concat (map (fun s => spliced (bs s)) l))) (done (sh0 ++ flat_map shape l))).
    { induction l as [|s l IH]; intros out sh0 D; cbn [map concat flat_map]; [apply Runs_ret; rewrite app_nil_r; exact D|].
      cbn [forallb] in S. apply andb_true_iff in S as [S1 S2]. eapply Runs_eq; [apply lines_cat|]. pose proof (cs_run s S1) as H. destruct (bs_stmts s) as [la E]. rewrite E in H |- *. cbn [spliced].
      rewrite app_assoc. apply Runs_bind with (P := done (sh0 ++ shape s)); [|intros o Do; apply (IH S2 _ _ Do)].
      change (T (AStmts la)) with (lines T [] la) in H.
      assert (LO : forall m out st, lines T out m st = match lines T [] m st with Ret (t, st') => Ret (out ++ t, st') | Raise x => Raise x end).
      { clear. induction m as [|a m IH]; intros out st0; cbn [lines]; [unfold tret; rewrite app_nil_r; reflexivity|]. unfold tbind. destruct (T a st0) as [[t st1]|]; [|reflexivity].
        rewrite (IH (sapp [out; t; nl])), (IH (sapp [[]; t; nl])). destruct (lines T [] m st1) as [[t2 st2]|]; [|reflexivity]. unfold sapp. cbn [concat app]. rewrite !app_nil_r, <- !app_assoc. reflexivity. }
      intros st0 x st' I R. rewrite LO in R. destruct (lines T [] la st0) as [[t st1]|] eqn:EL; [|discriminate R]. destruct (H _ _ _ I EL) as [I1 Dt]. apply ret_inj in R as [<- <-].
      split; [exact I1|apply done_app; assumption]. }
    apply (X [] [] done_nil).
  Qed.
End Methods.
