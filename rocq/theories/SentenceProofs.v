(** What the parser of statements finds is what the tokens say. *)
From Coq Require Import String Ascii List NArith PeanoNat Bool Lia.
From Verif Require Import PyBase LexModel DrelModel PhraseModel PhraseSpec PhraseProofs PhraseProofs2 PhraseProofs3 PhraseProofs4 PhraseProofs5 SentenceModel SentenceSpec.
Import ListNotations.
Open Scope nat_scope.

Lemma p_dots_S f ts : p_dots (S f) ts =
      obind (expect dot tt ts) (fun a =>
      obind (p_id (snd a)) (fun n =>
      obind (expect equals tt (snd n)) (fun b =>
      obind (p_expr (snd b)) (fun e =>
      match at_kind comma (snd e) with
      | None => Ret ([(fst n, fst e)], snd e)
      | Some r => obind (p_dots f r) (fun l => Ret (pfst (cons (fst n, fst e)) l))
      end)))).
Proof. reflexivity. Qed.
Lemma p_simple_S f ts : p_simple (S f) ts =
      obind (p_small ts) (fun x =>
      match at_kind semicolon (snd x) with
      | None => Ret (pfst (fun m => [m]) x)
      | Some ((NEWLINE, v) :: r) => Ret ([fst x], (NEWLINE, v) :: r)
      | Some r => obind (p_simple f r) (fun y => Ret (pfst (cons (fst x)) y))
      end).
Proof. reflexivity. Qed.
Lemma p_ids_S f ts : p_ids (S f) ts =
      obind (p_id ts) (fun x =>
      match at_kind comma (snd x) with
      | None => Ret (pfst (fun s => [s]) x)
      | Some r => obind (p_ids f r) (fun y => Ret (pfst (cons (fst x)) y))
      end).
Proof. reflexivity. Qed.
Lemma p_args_S f ts : p_args (S f) ts =
      obind (p_id ts) (fun x =>
      obind (expect colon tt (snd x)) (fun c =>
      obind (p_display (snd c)) (fun d =>
      match at_kind comma (snd d) with
      | None => Ret ([fst x], snd d)
      | Some r => obind (p_args f r) (fun y => Ret (pfst (cons (fst x)) y))
      end))).
Proof. reflexivity. Qed.
Lemma p_stmt_S f ts : p_stmt (S f) ts =
      match ts with
      | (IF, _) :: r =>
          obind (p_cond r) (fun c =>
          obind (p_suite f (skip_nl (snd c))) (fun s =>
          obind (p_elifs f (snd s)) (fun l =>
          match snd l with
          | (ELSE, _) :: q => obind (p_suite f q) (fun e => Ret (pfst (fun t => CIf (fst c) (fst s) (fst l) (Some t)) e))
          | _ => Ret (CIf (fst c) (fst s) (fst l) None, snd l)
          end)))
      | (FOR, _) :: r =>
          obind (p_for_head r) (fun h => obind (p_suite f (snd h)) (fun s => Ret (pfst (CFor (fst (fst h)) (snd (fst h))) s)))
      | (DO, _) :: r =>
          obind (p_do_head r) (fun h =>
          match fst h with
          | (i, (a, b, c)) => obind (p_suite f (snd h)) (fun s => Ret (pfst (CDo i a b c) s))
          end)
      | (LOOP, _) :: r =>
          obind (p_alias r) (fun a =>
          obind (p_loop_tail (snd a)) (fun h =>
          match fst h with
          | (idx, (op, var)) => obind (p_suite f (snd h)) (fun s => Ret (pfst (CLoop (fst (fst a)) (snd (fst a)) idx op var) s))
          end))
      | (WITH, _) :: r =>
          obind (p_alias r) (fun a =>
          obind (p_suite f (skip_nl (snd a))) (fun s => Ret (pfst (CWith (fst (fst a)) (snd (fst a))) s)))
      | (REPEAT, _) :: r => obind (p_suite f r) (fun s => Ret (pfst CRepeat s))
      | (FUNCTION, _) :: r =>
          obind (p_func_head r) (fun h => obind (p_suite f (snd h)) (fun s => Ret (pfst (CFunc (fst (fst h)) (snd (fst h))) s)))
      | _ => obind (p_simple (S (length ts)) ts) (fun l => need_nl (CSimple (fst l)) (snd l))
      end.
Proof. reflexivity. Qed.
Lemma p_elifs_S f ts : p_elifs (S f) ts =
      match ts with
      | (ELSEIF, _) :: r =>
          obind (p_cond r) (fun c =>
          obind (p_suite f (skip_nl (snd c))) (fun s =>
          obind (p_elifs f (snd s)) (fun l => Ret (pfst (cons (fst c, fst s)) l))))
      | _ => Ret ([], ts)
      end.
Proof. reflexivity. Qed.
Lemma p_suite_S f ts : p_suite (S f) ts =
      match at_kind curly_open ts with
      | Some r =>
          if table_next (skip_nl r) then obind (p_stmt f ts) (fun x => Ret (pfst (fun c => [c]) x))
          else obind (p_stmts f (skip_nl r)) (fun l =>
               obind (expect curly_close (fst l) (snd l)) (fun x => Ret (fst x, skip_nl (snd x))))
      | None => obind (p_stmt f ts) (fun x => Ret (pfst (fun c => [c]) x))
      end.
Proof. reflexivity. Qed.
Lemma p_stmts_S f ts : p_stmts (S f) ts =
      obind (p_stmt f ts) (fun x =>
      match at_kind curly_close (snd x) with
      | Some _ => Ret (pfst (fun c => [c]) x)
      | None => obind (p_stmts f (snd x)) (fun y => Ret (pfst (cons (fst x)) y))
      end).
Proof. reflexivity. Qed.
Lemma p_input_S f ts : p_input (S f) ts =
      obind (p_stmt f ts) (fun x =>
      match snd x with
      | [] => Ret [fst x]
      | _ :: _ => obind (p_input f (snd x)) (fun l => Ret (fst x :: l))
      end).
Proof. reflexivity. Qed.

Ltac rn E x r0 := let E1 := fresh "E" in apply bind_Ret in E as ([x r0] & E1 & E); cbn [fst snd pfst] in E.

Lemma expr_sound ts e r : p_expr ts = Ret (e, r) -> exists t, ts = t ++ r /\ says 0 e t.
Proof. exact (proj1 (sound_all _) OrTest ts e r). Qed.
Lemma exprs_sound ts l r : p_exprs ts = Ret (l, r) -> exists t, ts = t ++ r /\ says_all true l t.
Proof. destruct (sound_all (enough ts)) as (_ & _ & _ & _ & L & _). exact (L true ts l r). Qed.
Lemma id_sound ts s r : p_id ts = Ret (s, r) -> ts = (ID, s) :: r.
Proof. destruct ts as [|[k v] ts]; [discriminate|]. destruct k; try discriminate. now intros [= -> ->]. Qed.
Lemma dots_sound f : forall ts l r, p_dots f ts = Ret (l, r) -> exists t, ts = t ++ r /\ dots_say l t.
Proof.
  induction f as [|f IH]; intros ts l r E; [discriminate|]. rewrite p_dots_S in E.
  ren E. apply expect_Ret in E0 as (_ & v & ->). ren E. apply id_sound in E0 as ->. ren E. apply expect_Ret in E0 as (_ & w & ->).
  rn E e r1. apply expr_sound in E0 as (t & -> & Y). destruct (at_kind comma r1) as [r4|] eqn:X.
  - apply at_kind_Some in X as (y & ->). ren E. injection E as <- <-. destruct (IH _ _ _ E0) as (t2 & -> & Y2).
    eexists. split; [|apply (D_more _ _ _ v w y t t2 Y Y2)]. cbn [app]. now rewrite <- app_assoc.
  - injection E as <- <-. eexists. split; [|apply (D_one _ _ v w t Y)]. reflexivity.
Qed.
Lemma fancy_Some ts s r : fancy ts = Some (s, r) -> exists v, ts = (ID, s) :: (OPEN_PAREN, v) :: r.
Proof.
  destruct ts as [|[k v] ts]; [discriminate|]. destruct k; try discriminate. cbn [fancy].
  destruct (at_kind OPEN_PAREN ts) as [r2|] eqn:E; [|discriminate]. destruct (at_kind dot r2); [|discriminate]. intros [= -> ->].
  apply at_kind_Some in E as (w & ->). now exists w.
Qed.
Lemma small_sound ts m r : p_small ts = Ret (m, r) -> exists t, ts = t ++ r /\ small_says m t.
Proof.
  intros E.
  assert (match fancy ts with
      | Some (cat, r) =>
          obind (p_dots (S (length r)) r) (fun l => expect CLOSE_PAREN (MFancy cat (fst l)) (snd l))
      | None =>
          obind (p_exprs ts) (fun x =>
          match snd x with
          | (AUGOP, v) :: r => obind (p_exprs r) (fun y => Ret (pfst (MAssign (fst x) v) y))
          | (LIT c, v) :: r =>
              if (c =? 61)%N then obind (p_exprs r) (fun y => Ret (pfst (MAssign (fst x) v) y))
              else Ret (pfst MExprs x)
          | _ => Ret (pfst MExprs x)
          end)
      end = Ret (m, r) -> exists t, ts = t ++ r /\ small_says m t) as D.
  { clear E. destruct (fancy ts) as [[cat r0]|] eqn:X.
    - intros E. apply fancy_Some in X as (v & ->). ren E. apply expect_Ret in E as (-> & w & ->). apply dots_sound in E0 as (t & -> & Y).
      eexists. split; [|apply (M_fancy cat _ v w t Y)]. cbn [app]. now rewrite <- app_assoc.
    - intros E. ren E. apply exprs_sound in E0 as (t & -> & Y).
      assert (Ret (MExprs x, r0) = Ret (m, r) -> exists t0, t ++ r0 = t0 ++ r /\ small_says m t0) as D.
      { intros [= <- <-]. exists t. split; [auto|now apply M_exprs]. }
      destruct r0 as [|[k v] r1]; [auto|]. destruct k as [ | | | | | | | | | | | | | | | | | | | | | | | | | | | | | | | | | | | | | | | | | | | | | |c]; auto.
      + ren E. injection E as <- <-. apply exprs_sound in E0 as (t2 & -> & Y2).
        eexists. split; [|apply (M_assign AUGOP v _ _ t t2 (or_introl eq_refl) Y Y2)]. now rewrite <- app_assoc.
      + destruct (N.eqb_spec c 61) as [->|_]; [|auto]. ren E. injection E as <- <-. apply exprs_sound in E0 as (t2 & -> & Y2).
        eexists. split; [|apply (M_assign (LIT 61) v _ _ t t2 (or_intror eq_refl) Y Y2)]. now rewrite <- app_assoc. }
  destruct ts as [|[k v] ts]; [auto|]. destruct k; auto; cbn [p_small] in E.
  - injection E as <- <-. exists [(BREAK, v)]. split; [auto|apply M_break].
  - injection E as <- <-. exists [(NEXT, v)]. split; [auto|apply M_next].
  - ren E. injection E as <- <-. apply expr_sound in E0 as (t & -> & Y). exists ((PRINT, v) :: t). split; [auto|now apply M_print].
Qed.
(** A semicolon may be left at the end. *)
Lemma simple_sound f : forall ts l r, p_simple f ts = Ret (l, r) -> exists t x, ts = t ++ x ++ r /\ smalls_say l t /\
  (x = [] \/ exists v w q, x = [(LIT 59, v)] /\ r = (NEWLINE, w) :: q).
Proof.
  induction f as [|f IH]; intros ts l r E; [discriminate|]. rewrite p_simple_S in E. ren E. apply small_sound in E0 as (t & -> & Y).
  destruct (at_kind semicolon r0) as [r1|] eqn:X.
  - apply at_kind_Some in X as (v & ->).
    assert (obind (p_simple f r1) (fun y => Ret (pfst (cons x) y)) = Ret (l, r) -> exists t0 x0, t ++ (semicolon, v) :: r1 = t0 ++ x0 ++ r /\ smalls_say l t0 /\
      (x0 = [] \/ exists v w q, x0 = [(LIT 59, v)] /\ r = (NEWLINE, w) :: q)) as D.
    { clear E. intros E. ren E. injection E as <- <-. destruct (IH _ _ _ E0) as (t2 & y & -> & Y2 & H). exists (t ++ (LIT 59, v) :: t2), y.
      split; [rewrite <- app_assoc; reflexivity|]. split; [now apply M_more|exact H]. }
    destruct r1 as [|[k w] r1]; [auto|]. destruct k; auto. injection E as <- <-. exists t, [(LIT 59, v)]. split; [auto|]. split; [now apply M_one|].
    right. exists v, w, r1. auto.
  - injection E as <- <-. exists t, []. split; [auto|]. split; [now apply M_one|now left].
Qed.
Lemma ids_sound f : forall ts l r, p_ids f ts = Ret (l, r) -> exists t, ts = t ++ r /\ ids_say l t.
Proof.
  induction f as [|f IH]; intros ts l r E; [discriminate|]. rewrite p_ids_S in E. ren E. apply id_sound in E0 as ->.
  destruct (at_kind comma r0) as [r1|] eqn:X.
  - apply at_kind_Some in X as (v & ->). ren E. injection E as <- <-. destruct (IH _ _ _ E0) as (t & -> & Y).
    exists ((ID, x) :: (LIT 44, v) :: t). split; [auto|now apply I_more].
  - injection E as <- <-. exists [(ID, x)]. split; [auto|apply I_one].
Qed.
Lemma display_sound ts c r : p_display ts = Ret (c, r) -> exists t l, ts = t ++ r /\ c = XList l /\ says 8 (XList l) t.
Proof.
  unfold p_display. destruct (at_kind square_open ts) as [q|] eqn:X; [|discriminate]. intros E.
  destruct (sound_all (enough ts)) as (_ & _ & _ & A & _). destruct (A _ _ _ E) as (t & Et & Y).
  assert (exists l, c = XList l) as (l & ->); [|exists t, l; auto].
  apply at_kind_Some in X as (v & ->). unfold enough in E. destruct (14 * S _) as [|g]; [discriminate|]. rewrite p_atom_S in E. cbn [square_open N.eqb Pos.eqb] in E.
  destruct (at_kind square_close (skip_nl q)); [injection E as <- <-; eauto|]. ren E. apply expect_Ret in E as (-> & _). eauto.
Qed.
Lemma args_sound f : forall ts l r, p_args f ts = Ret (l, r) -> exists t, ts = t ++ r /\ args_say l t.
Proof.
  induction f as [|f IH]; intros ts l r E; [discriminate|]. rewrite p_args_S in E. ren E. apply id_sound in E0 as ->.
  ren E. apply expect_Ret in E0 as (_ & v & ->). rn E dd r2. apply display_sound in E0 as (t & d & -> & -> & Y).
  destruct (at_kind comma r2) as [r3|] eqn:X.
  - apply at_kind_Some in X as (w & ->). ren E. injection E as <- <-. destruct (IH _ _ _ E0) as (t2 & -> & Y2).
    eexists. split; [|apply (G_more x v w d _ t t2 Y Y2)]. cbn [app]. now rewrite <- app_assoc.
  - injection E as <- <-. eexists. split; [|apply (G_one x v d t Y)]. reflexivity.
Qed.
Lemma restricted_Some ts s r : restricted ts = Some (s, r) -> exists k, ts = (k, s) :: r /\ In k [LIT 60; LIT 62; GTE; LTE; NEQ; ISEQUAL].
Proof.
  destruct ts as [|[k v] ts]; [discriminate|]. destruct k; cbn [restricted]; try discriminate; try (intros [= -> ->]; eexists; split; [reflexivity|cbn [In]; auto 9]).
  destruct (existsb _ _) eqn:E; [|discriminate]. intros [= -> ->]. eexists. split; [reflexivity|]. apply in_char in E. vm_compute in E. cbn [In]. intuition congruence.
Qed.
Lemma cond_sound ts c r : p_cond ts = Ret (c, r) -> exists v w t, ts = (OPEN_PAREN, v) :: t ++ (CLOSE_PAREN, w) :: r /\ says 0 c t.
Proof.
  unfold p_cond. intros E. ren E. apply expect_Ret in E0 as (_ & v & ->). ren E. apply expr_sound in E0 as (t & -> & Y).
  apply expect_Ret in E as (-> & w & ->). eauto.
Qed.
Lemma alias_sound ts a c r : p_alias ts = Ret ((a, c), r) -> exists v, ts = (ID, a) :: (AS, v) :: (ID, c) :: r.
Proof.
  destruct ts as [|[k1 v1] [|[k2 v2] [|[k3 v3] ts]]]; try discriminate; destruct k1; try discriminate; destruct k2; try discriminate.
  destruct k3; try discriminate. intros [= -> -> ->]. eauto.
Qed.
Lemma loop_tail_sound ts i op x r : p_loop_tail ts = Ret ((i, (op, x)), r) -> exists t, ts = t ++ r /\ loop_tail i op x t.
Proof.
  unfold p_loop_tail. destruct (at_kind colon ts) as [r0|] eqn:X.
  - intros E. apply at_kind_Some in X as (v & ->). rn E ii r1. apply id_sound in E0 as ->. destruct (restricted r1) as [[o r2]|] eqn:X.
    + apply restricted_Some in X as (k & -> & K). ren E. apply id_sound in E0 as ->. injection E as <- <- <- <-.
      eexists. split; [|apply (P_test _ k _ _ v K)]. reflexivity.
    + injection E as <- <- <- <-. eexists. split; [|apply (P_index _ v)]. reflexivity.
  - intros [= <- <- <- <-]. exists []. split; [auto|constructor].
Qed.
Lemma for_head_sound ts ids l r : p_for_head ts = Ret ((ids, l), r) -> exists ti v tl, ts = ti ++ (IN_, v) :: tl ++ r /\ for_ids ids ti /\ says_all true l tl.
Proof.
  unfold p_for_head. intros E. rn E x r0.
  assert (exists ti, ts = ti ++ r0 /\ for_ids x ti) as (ti & -> & Hi).
  { destruct (at_kind square_open ts) as [q|] eqn:X.
    - apply at_kind_Some in X as (v & ->). ren E0. apply expect_Ret in E0 as (-> & w & ->). apply ids_sound in E1 as (t & -> & Y).
      eexists. split; [|apply (I_square _ v w t Y)]. cbn [app]. now rewrite <- app_assoc.
    - apply ids_sound in E0 as (t & -> & Y). exists t. split; [auto|now apply I_bare]. }
  destruct r0 as [|[k v] r0]; [discriminate|]. destruct k; try discriminate. ren E. injection E as <- <- <-.
  apply exprs_sound in E1 as (tl & -> & Y). exists ti, v, tl. auto.
Qed.
Lemma do_head_sound ts i x y e r : p_do_head ts = Ret ((i, (x, y, e)), r) -> exists w z tx ty te, ts = (ID, i) :: (LIT 61, w) :: tx ++ (LIT 44, z) :: ty ++ te ++ r
  /\ says 0 x tx /\ says 0 y ty /\ match e with None => te = [] | Some c => exists z' t, te = (LIT 44, z') :: t /\ says 0 c t end.
Proof.
  unfold p_do_head. intros E. ren E. apply id_sound in E0 as ->. ren E. apply expect_Ret in E0 as (_ & w & ->). ren E. apply expr_sound in E0 as (tx & -> & Y1).
  ren E. apply expect_Ret in E0 as (_ & z & ->). rn E yy r4. apply expr_sound in E0 as (ty & -> & Y2).
  destruct (at_kind comma r4) as [r5|] eqn:X.
  - apply at_kind_Some in X as (z' & ->). ren E. apply expr_sound in E0 as (te & -> & Y3). injection E as <- <- <- <- <-.
    exists w, z, tx, ty, ((LIT 44, z') :: te). split; [reflexivity|]. split; [auto|]. split; [auto|]. eauto.
  - injection E as <- <- <- <- <-. exists w, z, tx, ty, []. auto.
Qed.
Lemma func_head_sound ts n a r : p_func_head ts = Ret ((n, a), r) -> exists v w ta, ts = (ID, n) :: (OPEN_PAREN, v) :: ta ++ (CLOSE_PAREN, w) :: r /\ args_say a ta.
Proof.
  unfold p_func_head. intros E. ren E. apply id_sound in E0 as ->. ren E. apply expect_Ret in E0 as (_ & v & ->). ren E.
  apply args_sound in E0 as (t & -> & Y). apply expect_Ret in E as ([= -> ->] & w & ->). eauto.
Qed.

Definition sound_s (f : nat) : Prop :=
  (forall ts c r, p_stmt f ts = Ret (c, r) -> exists o t, ts = t ++ r /\ states false o c t) /\
  (forall ts l r, p_elifs f ts = Ret (l, r) -> exists t, ts = t ++ r /\
     forall p, exists p', forall els o t2, tail_says false p' [] els o t2 -> tail_says false p l els o (t ++ t2)) /\
  (forall ts l r, p_suite f ts = Ret (l, r) -> exists o t, ts = t ++ r /\ suite false o l t) /\
  (forall ts l r, p_stmts f ts = Ret (l, r) -> exists t, ts = t ++ r /\ all_state false l t).

Ltac kinds_of k := destruct k as [ | | | | | | | | | | | | | | | | | | | | | | | | | | | | | | | | | | | | | | | | | | | | | |ch].

Lemma sound_stmts f : sound_s f.
Proof.
  induction f as [|f (St & El & Su & Ss)]; [repeat apply conj; intros; discriminate|].
  assert (forall ts c r, p_suite f (skip_nl ts) = Ret (c, r) -> exists n o t, newlines n /\ ts = n ++ t ++ r /\ suite false o c t) as SuN.
  { intros ts c r E. destruct (skip_nl_split ts) as (n & N & En). destruct (Su _ _ _ E) as (o & t & Et & Y). exists n, o, t. split; [auto|]. split; [|auto].
    now rewrite <- Et. }
  assert (false = true -> forall P : Prop, P) as NB by discriminate.
  repeat apply conj.
  - intros ts c r E. rewrite p_stmt_S in E.
    assert (obind (p_simple (S (length ts)) ts) (fun l => need_nl (CSimple (fst l)) (snd l)) = Ret (c, r) -> exists o t, ts = t ++ r /\ states false o c t) as D.
    { clear E. intros E. ren E. apply simple_sound in E0 as (t & y & -> & Y & H).
      destruct r0 as [|[k v] q]; [discriminate|]. destruct k; try discriminate. cbn [need_nl] in E. injection E as <- <-.
      destruct (skip_nl_split q) as (n & N & En). exists false.
      destruct H as [-> | (v1 & w1 & q1 & -> & _)].
      - exists (t ++ (NEWLINE, v) :: n). split; [rewrite En at 1; cbn [app]; rewrite <- app_assoc; reflexivity|]. apply S_simple; [auto|now apply E_nl].
      - exists (t ++ (LIT 59, v1) :: (NEWLINE, v) :: n). split; [rewrite En at 1; rewrite <- app_assoc; reflexivity|]. apply S_simple; [auto|now apply E_semi]. }
    destruct ts as [|[k v] ts]; [auto|]. kinds_of k; auto.
    + (* DO *) ren E. destruct x as [i [[x y] e]]. apply do_head_sound in E0 as (w & z & tx & ty & te & -> & Y1 & Y2 & Y3).
      ren E. injection E as <- <-. apply Su in E0 as (o & t & -> & U). exists o.
      destruct e as [e|].
      * destruct Y3 as (z' & t3 & -> & Y3). eexists. split; [|apply (S_do_step false i x y e _ v w z z' o tx ty t3 t); eauto; discriminate].
        cbn [app]. rewrite <- !app_assoc. cbn [app]. rewrite <- !app_assoc. cbn [app]. now rewrite <- !app_assoc.
      * subst te. eexists. split; [|apply (S_do false i x y _ v w z o tx ty t); eauto; discriminate].
        cbn [app]. rewrite <- !app_assoc. cbn [app]. now rewrite <- !app_assoc.
    + (* FOR *) ren E. destruct x as [ids l]. apply for_head_sound in E0 as (ti & w & tl & -> & Y1 & Y2). ren E. injection E as <- <-.
      apply Su in E0 as (o & t & -> & U). exists o. eexists. split; [|apply (S_for false ids l _ v w o ti tl t); eauto; discriminate].
      cbn [app fst snd]. rewrite <- !app_assoc. cbn [app]. now rewrite <- !app_assoc.
    + (* LOOP *) ren E. destruct x as [a c0]. apply alias_sound in E0 as (w & ->). ren E. destruct x as [i [op x]].
      apply loop_tail_sound in E0 as (tt & -> & Y1). ren E. injection E as <- <-. apply Su in E0 as (o & t & -> & U). exists o.
      eexists. split; [|apply (S_loop false a c0 i op x _ v w o tt t); eauto]. cbn [app]. now rewrite <- !app_assoc.
    + (* REPEAT *) ren E. injection E as <- <-. apply Su in E0 as (o & t & -> & U). exists o, ((REPEAT, v) :: t). split; [auto|now apply S_repeat].
    + (* WITH *) ren E. destruct x as [a c0]. apply alias_sound in E0 as (w & ->). ren E. injection E as <- <-. apply SuN in E0 as (n & o & t & N & -> & U). exists o.
      eexists. split; [|apply (S_with false a c0 _ v w n o t); eauto]. cbn [app]. now rewrite <- !app_assoc.
    + (* IF *) rn E x r0. apply cond_sound in E0 as (v1 & v2 & tc & -> & Y1). rn E x0 r2. apply SuN in E0 as (n & o & t & N & -> & U).
      rn E x1 r1. apply El in E0 as (tl & -> & H). destruct (H o) as (p' & H').
      assert (forall els o2 t2 q, r1 = t2 ++ q -> tail_says false p' [] els o2 t2 -> exists o0 t0, (IF, v) :: (OPEN_PAREN, v1) :: tc ++ (CLOSE_PAREN, v2) :: n ++ t ++ tl ++ r1 = t0 ++ q /\ states false o0 (CIf x x0 x1 els) t0) as D2.
      { intros els o2 t2 q -> HT. exists o2. eexists. split; [|apply (S_if false x x0 x1 els v v1 v2 n o o2 tc t (tl ++ t2)); eauto].
        cbn [app]. rewrite <- !app_assoc. cbn [app]. now rewrite <- !app_assoc. }
      assert (Ret (CIf x x0 x1 None, r1) = Ret (c, r) -> exists o0 t0, (IF, v) :: (OPEN_PAREN, v1) :: tc ++ (CLOSE_PAREN, v2) :: n ++ t ++ tl ++ r1 = t0 ++ r /\ states false o0 c t0) as D3.
      { intros [= <- <-]. apply (D2 None true [] r1 eq_refl). apply T_none. }
      destruct r1 as [|[k w] r1]; [auto|]. kinds_of k; auto. rn E x2 r2. injection E as <- <-. apply Su in E0 as (o2 & t2 & -> & U2).
      apply (D2 (Some x2) o2 ((ELSE, w) :: t2) r2); [reflexivity|]. apply T_else; [discriminate|exact U2].
    + (* FUNCTION *) ren E. destruct x as [nm a]. apply func_head_sound in E0 as (v1 & v2 & ta & -> & Y). ren E. injection E as <- <-.
      apply Su in E0 as (o & t & -> & U). exists o. eexists. split; [|apply (S_func false nm a _ v v1 v2 o ta t); eauto].
      cbn [app fst snd]. now rewrite <- !app_assoc.
  - intros ts l r E. rewrite p_elifs_S in E.
    assert (Ret ([], ts) = Ret (l, r) -> exists t, ts = t ++ r /\
     forall p, exists p', forall els o t2, tail_says false p' [] els o t2 -> tail_says false p l els o (t ++ t2)) as D.
    { intros [= <- <-]. exists []. split; [auto|]. intros p. exists p. auto. }
    destruct ts as [|[k v] ts]; [auto|]. kinds_of k; auto.
    rn E x r0. apply cond_sound in E0 as (v1 & v2 & tc & -> & Y1). rn E x0 r2. apply SuN in E0 as (n & o & t & N & -> & U).
    rn E x1 r1. injection E as <- <-. apply El in E0 as (tl & -> & H). destruct (H o) as (p' & H').
    exists ((ELSEIF, v) :: (OPEN_PAREN, v1) :: tc ++ (CLOSE_PAREN, v2) :: n ++ t ++ tl). split; [cbn [app]; rewrite <- !app_assoc; cbn [app]; now rewrite <- !app_assoc|].
    intros p. exists p'. intros els o2 t2 HT. cbn [app]. rewrite <- !app_assoc. cbn [app]. rewrite <- !app_assoc.
    apply (T_elif false p x x0 x1 els v v1 v2 n o o2 tc t (tl ++ t2)); eauto. discriminate.
  - intros ts l r E. rewrite p_suite_S in E.
    assert (obind (p_stmt f ts) (fun x => Ret (pfst (fun c => [c]) x)) = Ret (l, r) -> exists o t, ts = t ++ r /\ suite false o l t) as D.
    { clear E. intros E. ren E. injection E as <- <-. apply St in E0 as (o & t & -> & Y). exists o, t. split; [auto|now apply U_one]. }
    destruct (at_kind curly_open ts) as [q|] eqn:X; [|auto]. destruct (table_next (skip_nl q)); [auto|].
    rn E x r0. rn E x1 r1. injection E as <- <-. apply at_kind_Some in X as (v & ->). apply expect_Ret in E1 as (-> & w & ->). apply Ss in E0 as (t & Et & Y).
    destruct (skip_nl_split q) as (n1 & N1 & En1). destruct (skip_nl_split r1) as (n2 & N2 & En2). exists false.
    eexists. split; [|apply (U_block false x v w n1 n2 t); auto]. rewrite En1, Et. rewrite En2 at 1. cbn [app]. rewrite <- !app_assoc. cbn [app]. reflexivity.
  - intros ts l r E. rewrite p_stmts_S in E. rn E x r0. apply St in E0 as (o & t & -> & Y).
    destruct (at_kind curly_close r0).
    + injection E as <- <-. exists t. split; [auto|]. exact (A_one false x o t Y).
    + rn E x0 r1. injection E as <- <-. apply Ss in E0 as (t2 & -> & Y2). exists (t ++ t2). split; [now rewrite <- app_assoc|]. exact (A_more false x o x0 t t2 Y Y2).
Qed.
Lemma input_sound f : forall ts l, p_input f ts = Ret l -> all_state false l ts.
Proof.
  induction f as [|f IH]; intros ts l E; [discriminate|]. rewrite p_input_S in E. rn E x r. apply (proj1 (sound_stmts f)) in E0 as (o & t & -> & Y).
  destruct r as [|a r].
  - injection E as <-. rewrite app_nil_r. exact (A_one false x o t Y).
  - apply bind_Ret in E as (l2 & E1 & E). injection E as <-. apply (A_more false x o l2 t (a :: r) Y). now apply IH.
Qed.
Lemma method_sound ts l : method ts = Ret l -> method_says false l ts.
Proof.
  unfold method. intros E. apply input_sound in E. destruct (skip_nl_split ts) as (n & N & En). exists n, (skip_nl ts). auto.
Qed.
