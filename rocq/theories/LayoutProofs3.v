(** The layout of statements. *)
From Coq Require Import String Ascii List NArith PeanoNat Bool Lia.
From Verif Require Import PyBase PyFacts DrelModel LayoutSpec LayoutProofs LayoutProofs2.
Import ListNotations.
Open Scope string_scope. Open Scope list_scope. Open Scope nat_scope.

Section Induction.
  Context (P : cs -> Prop)
    (Hsimple : forall l, P (CSimple l))
    (Hif : forall c s elifs els, Forall P s -> Forall (fun cl => Forall P (snd cl)) elifs -> match els with Some l => Forall P l | None => True end -> P (CIf c s elifs els))
    (Hfor : forall ids l s, Forall P s -> P (CFor ids l s))
    (Hdo : forall id a b c s, Forall P s -> P (CDo id a b c s))
    (Hloop : forall alias cat idx op var s, Forall P s -> P (CLoop alias cat idx op var s))
    (Hwith : forall alias cat s, Forall P s -> P (CWith alias cat s))
    (Hrepeat : forall s, Forall P s -> P (CRepeat s))
    (Hfunc : forall f args s, Forall P s -> P (CFunc f args s)).
  Fixpoint cs_all (c : cs) : P c :=
    let fix all (l : list cs) : Forall P l :=
      match l with [] => Forall_nil _ | x :: r => Forall_cons x (cs_all x) (all r) end in
    let fix pairs (l : list (cx * list cs)) : Forall (fun cl => Forall P (snd cl)) l :=
      match l with [] => Forall_nil _ | x :: r => Forall_cons x (all (snd x)) (pairs r) end in
    match c with
    | CSimple l => Hsimple l
    | CIf c s elifs els => Hif c s elifs els (all s) (pairs elifs) (match els with Some l => all l | None => I end)
    | CFor ids l s => Hfor ids l s (all s)
    | CDo id a b c s => Hdo id a b c s (all s)
    | CLoop alias cat idx op var s => Hloop alias cat idx op var s (all s)
    | CWith alias cat s => Hwith alias cat s (all s)
    | CRepeat s => Hrepeat s (all s)
    | CFunc f args s => Hfunc f args s (all s)
    end.
End Induction.

Lemma In_dset {V} k (v : V) d x w : In (x, w) (dset str_eqb k v d) -> w = v \/ In (x, w) d.
Proof.
  induction d as [|[k2 v2] d IH]; cbn [dset]; [intros [E|[]]; injection E as _ <-; auto|].
  destruct (str_eqb k k2); intros [E|I]; [injection E as _ <-; auto|right; right; exact I|right; left; exact E|].
  destruct (IH I) as [->|J]; [auto|right; right; exact J].
Qed.
Lemma In_ddel {V} k (d : list (str * V)) x : In x (ddel str_eqb k d) -> In x d.
Proof.
  induction d as [|[k2 v2] d IH]; cbn [ddel]; [auto|]. destruct (str_eqb k k2); [intros I; right; exact I|].
  intros [E|I]; [left; exact E|right; auto].
Qed.

(** Texts that end their last line. *)
Definition ends (t : str) : Prop := t = [] \/ exists t0, t = t0 ++ nl.
Definition done (l : list node) (t : str) : Prop := laid t l /\ ends t.
Lemma laid_ends a b l1 l2 : laid a l1 -> ends a -> laid b l2 -> laid (a ++ b) (l1 ++ l2).
Proof.
  intros A [->|(t & ->)] B.
  - inversion A; [exact B].
  - rewrite <- app_assoc. apply laid_app; [|exact B].
    unfold laid in *. pose proof (lines_app t []) as E. change (py_lines []) with (@nil (nat * str)) in E. rewrite !app_nil_r in E. rewrite E in A. exact A.
Qed.
Lemma done_nil : done [] []. Proof. split; [apply laid_nil|left; reflexivity]. Qed.
Lemma done_app a b l1 l2 : done l1 a -> done l2 b -> done (l1 ++ l2) (a ++ b).
Proof.
  intros [A EA] [B EB]. split; [apply laid_ends; assumption|]. destruct EB as [->|(t & ->)]; [rewrite app_nil_r; exact EA|].
  right. exists (a ++ t). rewrite app_assoc. reflexivity.
Qed.
Lemma done_nl a l : laid a l -> done l (a ++ nl).
Proof. intros L. split; [apply laid_nl, L|right; eauto]. Qed.
Lemma Runs_lines f l shs : Forall2 (fun a sh => Runs (f a) (fun t => laid t sh)) l shs -> forall out sh0, done sh0 out ->
  Runs (lines f out l) (done (sh0 ++ concat shs)).
Proof.
  induction 1 as [|a sh l shs H F IH]; intros out sh0 D; cbn [lines concat].
  - apply Runs_ret. rewrite app_nil_r. exact D.
  - eapply Runs_bind; [exact H|]. intros t L. rewrite app_assoc. apply IH. unfold sapp. cbn [concat]. rewrite app_nil_r. apply done_app; [exact D|apply done_nl, L].
Qed.
Lemma lines_cat f a b : forall out st, lines f out (a ++ b) st = tbind (lines f out a) (fun o => lines f o b) st.
Proof.
  induction a as [|x a IH]; intros out st; [reflexivity|]. cbn [app lines]. unfold tbind. destruct (f x st) as [[t st1]|]; [|reflexivity]. rewrite IH. reflexivity.
Qed.
Lemma Runs_eq m m2 P : (forall st, m st = m2 st) -> Runs m2 P -> Runs m P.
Proof. intros E R st s st' I X. rewrite E in X. exact (R _ _ _ I X). Qed.

Section Statements.
  Context (e : env) (FE : flat_env e).
  Notation T := (traverse e).
  Definition tcs (s : cs) : Prop := flat_cs s = true -> Runs (T (bs s)) (done (shape s)).
  Lemma expr c : flat_cx c = true -> Runs (T (be c)) Wd.
  Proof. exact (expr_run e FE c). Qed.
  Lemma exprs l : forallb flat_cx l = true -> Forall (fun a => Runs (T a) Wd) (map be l).
  Proof. intros H. rewrite Forall_forall. intros a I. apply in_map_iff in I as (c & <- & I). rewrite forallb_forall in H. apply expr, H, I. Qed.
  Lemma texts_run l : Forall (fun a => Runs (T a) Wd) l -> forall st vs st', flat_sp st -> texts T l st = Ret (vs, st') -> flat_sp st' /\ Forall Wd vs /\ length vs = length l.
  Proof.
    induction 1 as [|a l H F IH]; intros st0 vs st' I E; cbn [texts] in E; [injection E as <- <-; auto|].
    destruct (T a st0) as [[t st1]|] eqn:Ea; [|discriminate E]. destruct (H _ _ _ I Ea) as [I1 W].
    destruct (texts T l st1) as [[ts st2]|] eqn:El; [|discriminate E]. destruct (IH _ _ _ I1 El) as (I2 & F2 & L). injection E as <- <-.
    cbn [fst snd length]. auto.
  Qed.
  Lemma right_run lhs l : Forall (fun a => Runs (T a) Wd) l -> forall order out,
    Runs (right_side T lhs order out l) (fun s => exists xs, Forall Wd xs /\ length xs = length l /\ s = out ++ commaed [] xs).
  Proof.
    induction 1 as [|a l H F IH]; intros order out; cbn [right_side].
    - apply Runs_ret. exists []. repeat split; [constructor|]. rewrite app_nil_r. reflexivity.
    - eapply Runs_bind; [exact H|]. intros t W st0 s st' I E. destruct (note_packet lhs order st0) as [st1|] eqn:N; [|discriminate E].
      assert (I1 : flat_sp st1).
      { unfold note_packet in N. destruct (s_sub st0) as [|c r]; [injection N as <-; exact I|]. destruct (nth_error lhs order); [|discriminate N]. injection N as <-.
        apply (same_sp st0); auto. }
      destruct (IH _ _ _ _ _ I1 E) as (I2 & xs & FX & L & ->). split; [exact I2|]. exists (t :: xs). repeat split; [auto|cbn [length]; congruence|].
      unfold sapp, commaed. cbn [concat map app]. rewrite app_nil_r, <- !app_assoc. reflexivity.
  Qed.
  Lemma assign_run lhs op rhs : flat_small (MAssign lhs op rhs) = true -> Runs (T (bm (MAssign lhs op rhs))) Wd.
  Proof.
    cbn [flat_small]. intros S. repeat (apply andb_true_iff in S as [S ?]). intros st0 s st' I E. cbn [bm traverse] in E.
    destruct (texts T (map be lhs) (set_rhs (Some false) st0)) as [[vs st1]|] eqn:ET; [|discriminate E].
    apply texts_run in ET as (I1 & FV & LV); [|apply exprs; assumption|apply (same_sp st0); auto].
    assert (NV : vs <> []) by (destruct vs; [rewrite map_length in LV; destruct lhs; [discriminate S|discriminate LV]|discriminate]).
    pose proof (joined_Wd vs NV FV) as WL.
    assert (EL : drop_last (concat (map (fun v => v ++ u ",") vs)) = drop_last (commaed [] vs)) by reflexivity.
    cbv zeta in E. rewrite EL in E. set (left := drop_last (commaed [] vs)) in *.
    refine (Runs_bind _ _ _ Wd (right_run vs (map be rhs) (exprs rhs ltac:(assumption)) 0 []) _ _ _ _ (same_sp st1 (set_rhs (Some true) st1) I1 eq_refl eq_refl) E).
    intros r (xs & FX & LX & ->). cbn [app].
    assert (NX : xs <> []) by (destruct xs; [rewrite map_length in LX; destruct rhs; [discriminate|discriminate LX]|discriminate]).
    pose proof (joined_Wd xs NX FX) as WR. set (right := drop_last (commaed [] xs)) in *. destruct WL as [L1 L2], WR as [R1 R2].
    destruct (str_eqb op (u "=")).
    - apply Runs_mod; [kept|]. apply Runs_ret. unfold sapp. cbn [concat]. rewrite app_nil_r. split; [apply St_app; [exact L1|flats]|]. apply En_app; [flats|]. apply En_app; [reflexivity|exact R2].
    - destruct (aug_assign op) as [f|] eqn:A; [|apply Runs_raise]. apply Runs_mod; [kept|]. apply Runs_ret.
      assert (F : flat f = true).
      { apply (dget_In str_eqb str_eqb_spec) in A. cbn [In] in A. repeat (destruct A as [A|A]; [injection A as _ <-; reflexivity|]). destruct A. }
      unfold sapp. cbn [concat]. rewrite app_nil_r. split; [apply St_app; [exact L1|flats]|]. apply En_app; [flats|]. repeat (apply En_app; [flats|]). closed.
  Qed.
  Lemma fancy_run cat l : forallb (fun ke => flat_cx (snd ke)) l = true -> forall out sh0, done sh0 out ->
    Runs (fancy T e cat out (map (fun ke => (fst ke, be (snd ke))) l)) (done (sh0 ++ map (fun _ => Line) l)).
  Proof.
    induction l as [|[obj c] l IH]; intros S out sh0 D; cbn [map fancy fst snd].
    - apply Runs_ret. rewrite app_nil_r. exact D.
    - cbn [forallb snd] in S. apply andb_true_iff in S as [S1 S2]. intros st0 s st' I E.
      destruct (e_name e cat obj) as [id|] eqn:N; [|discriminate E]. apply (f_name _ FE) in N.
      refine (Runs_bind _ _ Wd _ (expr c S1) _ _ _ _ I E). intros t W.
      change (sh0 ++ Line :: map (fun _ : str * cx => Line) l) with (sh0 ++ [Line] ++ map (fun _ : str * cx => Line) l). rewrite app_assoc.
      apply (IH S2). unfold sapp. cbn [concat]. rewrite app_nil_r. apply done_app; [exact D|].
      set (x := u "__dreltarget.update({'" ++ id ++ u "':__dreltarget.get('" ++ id ++ u "',[])+[" ++ t ++ u "]})").
      assert (X : Wd x). { split; [apply St_app; [closed|flats]|]. unfold x. repeat (apply En_app; [flats|]). closed. }
      assert (EX : u "__dreltarget.update({'" ++ id ++ u "':__dreltarget.get('" ++ id ++ u "',[])+[" ++ t ++ u "]})" ++ nl = x ++ nl).
      { unfold x. repeat rewrite app_assoc. reflexivity. }
      rewrite EX. apply done_nl, laid_line, X.
  Qed.
  Lemma same_lines (l : list cx) : concat (map (fun _ => [Line]) l) = map (fun _ => Line) l.
  Proof. induction l as [|x l IH]; [reflexivity|]. cbn [map concat]. rewrite IH. reflexivity. Qed.
  Lemma small_run m : flat_small m = true -> Runs (T (bm m)) (fun t => laid t (small_shape m)).
  Proof.
    intros S. destruct m as [l|lhs op rhs|cat l|c| |]; cbn [small_shape].
    - cbn [flat_small] in S. apply andb_true_iff in S as [_ S]. cbn [bm traverse]. eapply Runs_weak; [apply (Runs_lines T (map be l) (map (fun _ => [Line]) l)) with (sh0 := []); [|apply done_nil]|].
      + pose proof (exprs l S) as F. clear S. induction l as [|c l IH]; cbn [map]; [constructor|]. cbn [map] in F. inversion F; subst. constructor; [|auto].
        eapply Runs_weak; [eassumption|apply laid_line].
      + intros t [L _]. cbn [app] in L. rewrite same_lines in L. exact L.
    - eapply Runs_weak; [apply assign_run, S|apply laid_line].
    - cbn [flat_small] in S. apply andb_true_iff in S as [_ S]. cbn [bm traverse]. apply Runs_mod; [kept|]. eapply Runs_bind; [apply (fancy_run cat l S [] [] done_nil)|].
      intros t [L _]. apply Runs_mod; [kept|]. apply Runs_ret. exact L.
    - cbn [bm traverse]. eapply Runs_bind; [apply (expr c S)|]. intros t W. apply Runs_ret, laid_line. unfold sapp. cbn [concat]. rewrite app_nil_r.
      split; [apply St_app; [closed|flats]|]. repeat (apply En_app; [flats|]). closed.
    - apply Runs_ret, laid_line. closed.
    - apply Runs_ret, laid_line. closed.
  Qed.
  Lemma bs_stmts s : exists l, bs s = AStmts l.
  Proof. destruct s; cbn [bs]; eauto. Qed.
  Lemma stmts_run l : Forall tcs l -> some l = true -> forallb flat_cs l = true -> Runs (T (statements (map bs l))) (done (flat_map shape l)).
  Proof.
    intros F N S. destruct F as [|a l H F]; [discriminate N|]. cbn [forallb] in S. apply andb_true_iff in S as [S1 S2]. cbn [flat_map]. specialize (H S1).
    destruct F as [|b l H2 F]; [cbn [map statements flat_map]; rewrite app_nil_r; exact H|].
    destruct (bs_stmts a) as [la E]. cbn [map statements]. rewrite E. cbn [spliced]. rewrite E in H.
    change (T (AStmts (la ++ bs b :: map bs l))) with (lines T [] (la ++ map bs (b :: l))). eapply Runs_eq; [apply lines_cat|].
    eapply Runs_bind; [exact H|]. intros o D. rewrite flat_map_concat_map. apply Runs_lines; [|exact D].
    assert (F2 : Forall tcs (b :: l)) by (constructor; assumption). clear - F2 S2. revert S2. induction F2 as [|x m H F IH]; intros S; cbn [map]; [constructor|].
    cbn [forallb] in S. apply andb_true_iff in S as [S1 S2]. constructor; [|exact (IH S2)]. eapply Runs_weak; [exact (H S1)|intros t [L _]; exact L].
  Qed.
  Lemma one_run a sh : Runs (T a) (fun t => laid t sh) -> Runs (T (AStmts [a])) (done sh).
  Proof.
    intros H. change (T (AStmts [a])) with (lines T [] [a]). eapply Runs_weak; [apply (Runs_lines T [a] [sh]) with (sh0 := []); [constructor; [exact H|constructor]|apply done_nil]|].
    intros t D. cbn [app concat] in D. rewrite app_nil_r in D. exact D.
  Qed.
  Lemma shape_ne s : flat_cs s = true -> shape s <> [].
  Proof.
    apply (cs_all (fun s => flat_cs s = true -> shape s <> [])); clear s; cbn [flat_cs shape].
    - intros l S. apply andb_true_iff in S as [N S]. destruct l as [|m l]; [discriminate N|]. cbn [forallb] in S. apply andb_true_iff in S as [S _]. cbn [flat_map].
      destruct m as [[|x r]|lhs op rhs|cat [|x r]|c| |]; cbn [small_shape map app]; try discriminate; discriminate S.
    - discriminate.
    - discriminate. - discriminate. - intros; discriminate.
    - intros alias cat s F S. apply andb_true_iff in S as [N S]. destruct F as [|a s H F]; [discriminate N|]. cbn [forallb] in S. apply andb_true_iff in S as [S _]. cbn [flat_map].
      specialize (H S). destruct (shape a); [congruence|discriminate].
    - discriminate.
    - discriminate.
  Qed.
  Lemma shapes_ne l : some l = true -> forallb flat_cs l = true -> flat_map shape l <> [].
  Proof.
    destruct l as [|a l]; [discriminate|]. intros _ S. cbn [forallb] in S. apply andb_true_iff in S as [S _]. cbn [flat_map].
    pose proof (shape_ne a S). destruct (shape a); [congruence|discriminate].
  Qed.
  (** An opening line made of a keyword and a text *)
  Lemma head_laid h x t b w : h = w ++ x ++ u ":" -> St w -> flat x = true -> (first_word h = removelast w) -> laid t b -> b <> [] ->
    laid (h ++ indented t) [Opens (removelast w) b].
  Proof.
    intros -> S F W L N. rewrite <- W. assert (SH : St (w ++ x ++ u ":")) by (apply St_app; [exact S|flats]). destruct SH as (A & B & C).
    apply laid_head; auto. rewrite app_assoc. apply opens_colon.
  Qed.
  Lemma elifs_run elifs : Forall (fun cl => Forall tcs (snd cl)) elifs ->
    forallb (fun cl => flat_cx (fst cl) && some (snd cl) && forallb flat_cs (snd cl)) elifs = true -> forall out sh0, laid out sh0 ->
    Runs (elseifs T out (map (fun cl => (be (fst cl), statements (map bs (snd cl)))) elifs)) (fun t => laid t (sh0 ++ map (fun cl => Opens (u "elif") (flat_map shape (snd cl))) elifs)).
  Proof.
    induction 1 as [|[c s] elifs H F IH]; intros S out sh0 L; cbn [map elseifs fst snd].
    - apply Runs_ret. rewrite app_nil_r. exact L.
    - cbn [forallb fst snd] in *. apply andb_true_iff in S as [S S4]. apply andb_true_iff in S as [S S3]. apply andb_true_iff in S as [S1 S2].
      eapply Runs_bind; [apply (expr c S1)|]. intros ct W. eapply Runs_bind; [apply (stmts_run s H S2 S3)|]. intros t [Lt _].
      change (sh0 ++ Opens (u "elif") (flat_map shape s) :: map (fun cl : cx * list cs => Opens (u "elif") (flat_map shape (snd cl))) elifs)
        with (sh0 ++ [Opens (u "elif") (flat_map shape s)] ++ map (fun cl : cx * list cs => Opens (u "elif") (flat_map shape (snd cl))) elifs).
      rewrite app_assoc. apply (IH S4).
      assert (E : sapp [out; nl; u "elif "; ct; u ":"; indented t] = out ++ nl ++ (u "elif " ++ ct ++ u ":") ++ indented t).
      { unfold sapp. cbn [concat]. rewrite app_nil_r, <- !app_assoc. reflexivity. }
      rewrite E. apply laid_app; [exact L|]. apply (head_laid _ ct t _ (u "elif ")); auto; [closed|apply Wd_flat, W|apply shapes_ne; assumption].
  Qed.
  (** The rows of a category *)
  Lemma rows_laid cat key index n op var : flat key = true -> flat op = true -> flat var = true -> flat index = true -> forall t b, laid t b -> b <> [] ->
    laid (loop_text e cat key index n op var ++ indented t) (rows (given op) ++ [Opens (u "for") b]).
  Proof.
    intros FK FO FV FI t b L N. assert (FN : Wd (e_names e (lower cat))) by (apply word_Wd, (f_names _ FE)). unfold loop_text.
    set (names := e_names e (lower cat)) in *.
    set (l1 := u "__pyallitems = " ++ names). set (l2 := u "print('names in cat = %s' % repr(__pyallitems))").
    set (l3 := u "__pycitems = [a for a in __pyallitems if " ++ has_name (u "a") ++ u "]"). set (l4 := u "print('names in cat -> %s' % repr(__pycitems))").
    set (h := u "if len(__pycitems)==0:").
    set (i1 := u "__pydummy = " ++ data_access (squote key)). set (i3 := u "print('After category creation, names in cat ->' + repr(__pycitems))").
    set (r1 := u "__loop_range" ++ dec n ++ u " = range(" ++ count_data (data_access (u "__pycitems[0]")) ++ u ")").
    set (r2 := u "__loop_range" ++ dec n ++ u " = [a for a in __loop_range" ++ dec n ++ u " if a " ++ op ++ u " " ++ var ++ u "]").
    set (f := u "for " ++ (index ++ u " in __loop_range" ++ dec n) ++ u ":").
    assert (W1 : Wd l1) by (destruct FN as [A B]; split; [apply St_app; [closed|flats]|apply En_app; [reflexivity|exact B]]).
    assert (WI : Wd i1).
    { assert (D : Wd (data_access (squote key))) by (apply access_Wd; unfold squote; flats). destruct D as [A B]; split; [apply St_app; [closed|flats]|apply En_app; [reflexivity|exact B]]. }
    assert (WR : Wd r1) by (split; [apply St_app; [closed|flats]|unfold r1; repeat (apply En_app; [flats|]); closed]).
    assert (WR2 : Wd r2) by (split; [apply St_app; [closed|flats]|unfold r2; repeat (apply En_app; [flats|]); closed]).
    assert (B : laid (i1 ++ nl ++ l3 ++ nl ++ i3) [Line; Line; Line]).
    { apply (laid_app _ _ [Line] [Line; Line]); [apply laid_line, WI|]. apply (laid_app _ _ [Line] [Line]); apply laid_line; closed. }
    assert (Q : laid (h ++ indented (i1 ++ nl ++ l3 ++ nl ++ i3)) [Opens (u "if") [Line; Line; Line]]).
    { change (u "if") with (first_word h). apply laid_head; try exact B; try discriminate; reflexivity. }
    assert (F : laid (f ++ indented t) [Opens (u "for") b]).
    { apply (head_laid _ (index ++ u " in __loop_range" ++ dec n) t b (u "for ")); auto; [closed|flats]. }
    assert (E2 : indented (i1 ++ nl ++ l3 ++ nl ++ i3) = nl ++ (u "    " ++ i1) ++ nl ++ (u "    " ++ l3) ++ nl ++ (u "    " ++ i3)).
    { unfold indented, add_indent. rewrite !flat_map_app. fold (add_indent i1). rewrite (add_indent_flat i1) by (apply Wd_flat, WI). reflexivity. }
    rewrite E2 in Q.
    assert (R : laid (l1 ++ nl ++ l2 ++ nl ++ l3 ++ nl ++ l4 ++ nl ++ (h ++ nl ++ (u "    " ++ i1) ++ nl ++ (u "    " ++ l3) ++ nl ++ (u "    " ++ i3)) ++ nl ++ [] ++ nl ++ r1) (rows false)).
    { change (rows false) with ([Line] ++ [Line] ++ [Line] ++ [Line] ++ [Opens (u "if") [Line; Line; Line]] ++ [] ++ [Line]).
      repeat (apply laid_app; [first [exact Q|apply laid_nil|apply laid_line; first [exact W1|closed]]|]). apply laid_line, WR. }
    destruct op as [|o op].
    - pose proof (laid_app _ _ _ _ R F) as G. refine (eq_ind _ (fun z => laid z (rows false ++ [Opens (u "for") b])) G _ _).
      unfold sapp. rewrite concat_app. cbn [concat app]. unfold l1, l2, l3, l4, h, i1, i3, r1, f. rewrite ?app_nil_r. rewrite <- ?app_assoc. reflexivity.
    - change (rows (given (o :: op)) ++ [Opens (u "for") b]) with (rows false ++ [Line] ++ [Opens (u "for") b]).
      assert (F2 : laid (r2 ++ nl ++ f ++ indented t) ([Line] ++ [Opens (u "for") b])) by (apply laid_app; [apply laid_line, WR2|exact F]).
      pose proof (laid_app _ _ _ _ R F2) as G. refine (eq_ind _ (fun z => laid z (rows false ++ [Line] ++ [Opens (u "for") b])) G _ _).
      cbv iota. unfold r2. set (q := o :: op). clearbody q.
      unfold sapp. rewrite !concat_app. cbn [concat app]. unfold l1, l2, l3, l4, h, i1, i3, r1, f. rewrite ?app_nil_r. rewrite <- ?app_assoc. reflexivity.
  Qed.
End Statements.
