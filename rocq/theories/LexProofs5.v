(** Consequences of the reading of a text: parentheses and newlines, and tokens
    separated by blanks. *)
From Coq Require Import String Ascii List NArith PeanoNat Bool Lia.
From Verif Require Import PyBase PyFacts LexModel LexSpec LexProofs LexProofs2 LexProofs3 LexProofs4.
Import ListNotations.
Open Scope nat_scope.

(** ** Parentheses *)
Lemma count_app k a b : count k (a ++ b) = count k a + count k b.
Proof. unfold count. now rewrite filter_app, app_length. Qed.
Lemma word_kind k t : is_word k t -> k <> OPEN_PAREN /\ k <> CLOSE_PAREN /\ k <> NEWLINE.
Proof.
  intros (ws & I & _). cbn [words In] in I.
  repeat (destruct I as [E|I]; [injection E as <- _; split; [discriminate|split; discriminate]|]). destruct I.
Qed.
Lemma gives_depth k t o d : gives k t o -> (k = CLOSE_PAREN -> 0 < d) -> depth_after k d + closed o = d + opened o.
Proof.
  intros G H. destruct G as [k t W|t W|x y ds v n A D|x y ds v n A D|x y ds v n A D|t|t|k t A]; try (cbn; lia).
  - apply word_kind in W. destruct W as (A & B & _). destruct k; try (cbn; lia); congruence.
  - destruct k; cbn; try lia; specialize (H eq_refl); lia.
Qed.
Lemma close_inside ks d s k t r : ks = kinds_at d -> first_of ks s k t r -> k = CLOSE_PAREN -> 0 < d.
Proof.
  intros -> F ->. apply first_kind in F. destruct F as [I _]. destruct d; [|lia]. exfalso. revert I. cbn.
  intros I. repeat (destruct I as [E|I]; [discriminate|]). exact I.
Qed.
Theorem reads_balance d s ts d' : reads d s ts d' -> d' + closed ts = d + opened ts.
Proof.
  induction 1 as [d|d c s ts d' G R IH|d s k t rest o ts d' NG F Gv R IH|d c s ts d' NG F Sg R IH].
  - reflexivity. - exact IH.
  - unfold closed, opened in *. rewrite !count_app. pose proof (gives_depth k t o d Gv (close_inside _ d s k t rest eq_refl F)) as Q. unfold closed, opened in Q. lia.
  - exact IH.
Qed.
(** A newline is only passed on outside of parentheses, and a closing
    parenthesis only inside. *)
Theorem reads_newlines d s ts d' : reads d s ts d' -> forall before k t after, ts = before ++ (k, t) :: after ->
  (k = NEWLINE -> d + opened before = closed before) /\ (k = CLOSE_PAREN -> closed before < d + opened before).
Proof.
  induction 1 as [d|d c s ts d' G R IH|d s k0 t0 rest o ts d' NG F Gv R IH|d c s ts d' NG F Sg R IH]; intros before k t after E.
  - destruct before; discriminate.
  - exact (IH _ _ _ _ E).
  - pose proof (gives_depth k0 t0 o d Gv (close_inside _ d s k0 t0 rest eq_refl F)) as Q.
    assert (o = [] \/ exists x, o = [x]) as [->|([k1 t1] & ->)] by (destruct Gv; first [now left|right; eexists; reflexivity]).
    + cbn in Q. destruct (IH _ _ _ _ E) as [A B]. split; intros Hk; [specialize (A Hk)|specialize (B Hk)]; unfold closed, opened in *; lia.
    + cbn [app] in E. destruct before as [|z before]; cbn [app] in E.
      * injection E as <- <- <-. split; intros ->.
        -- assert (k0 = NEWLINE) as -> by (inversion Gv; subst; try reflexivity; match goal with W : is_word _ _ |- _ => apply word_kind in W; destruct W as (_ & _ & W); now elim W end).
           destruct d; [reflexivity|]. exfalso. apply first_kind in F as F2. destruct F2 as [_ (x & -> & _)]. destruct F as (_ & Es & _). apply (NG 10%N (x ++ rest)); [exact Es|]. right. split; [reflexivity|discriminate].
        -- assert (k0 = CLOSE_PAREN) as -> by (inversion Gv; subst; try reflexivity; match goal with W : is_word _ _ |- _ => apply word_kind in W; destruct W as (_ & W & _); now elim W end).
           pose proof (close_inside _ d s _ _ _ eq_refl F eq_refl). cbn. lia.
      * injection E as <- E. destruct (IH _ _ _ _ E) as [A B]. change ((k1, t1) :: before) with ([(k1, t1)] ++ before). unfold closed, opened in *. rewrite !count_app.
        split; intros Hk; [specialize (A Hk)|specialize (B Hk)]; lia.
  - destruct before as [|z before]; cbn [app] in E; [injection E as <- <- <-; split; discriminate|injection E as <- E2].
    destruct (IH _ _ _ _ E2) as [A B]. split; intros Hk; [specialize (A Hk)|specialize (B Hk)]; unfold closed, opened in *; cbn [count filter fst length] in *; assumption.
Qed.

(** ** Tokens separated by blanks *)
(** The characters with which a text of a kind can start. *)
Definition starts (k : kind) (c : N) : Prop :=
  match k with
  | SHORTSTRING | LONGSTRING => quote_ch c
  | INTEGER => digit c
  | BININT | OCTINT | HEXINT => c = 48%N
  | REAL | IMAGINARY => digit c \/ c = 46%N
  | STRPREFIX => c = 114%N \/ c = 117%N \/ c = 82%N \/ c = 85%N
  | ELSEIF => c = 69%N \/ c = 101%N
  | ID => letter_ch c
  | ITEM_TAG => c = 95%N
  | ESCAPE_NEWLINE => c = 92%N
  | NEWLINE => c = 10%N
  | COMMENT => c = 35%N
  | AUGOP => c = 43%N \/ c = 45%N \/ c = 42%N \/ c = 47%N
  | OPEN_PAREN => c = 40%N | CLOSE_PAREN => c = 41%N | ELLIPSIS => c = 46%N | POWER => c = 42%N | BADOR => c = 124%N
  | ISEQUAL => c = 61%N | NEQ => c = 33%N | GTE => c = 62%N | LTE => c = 60%N | BADAND => c = 38%N
  | _ => False
  end.
Lemma real_start t : real_text t -> exists c r, t = c :: r /\ (digit c \/ c = 46%N).
Proof.
  intros (m & e & -> & (a & b & -> & Fa & Fb & Ne) & _). destruct a as [|x a]; cbn [app].
  - eexists. eexists. split; [reflexivity|now right].
  - inversion Fa; subst. eexists. eexists. split; [reflexivity|now left].
Qed.
Lemma shape_start k t r : shape k t r -> exists c t', t = c :: t' /\ starts k c.
Proof.
  destruct k; cbn [shape starts]; try contradiction.
  - intros (q & x & H & -> & _). now exists q, (x ++ [q]).
  - intros (q & x & H & -> & _). now exists q, (q :: q :: x ++ [q; q; q]).
  - intros [Ne F]. destruct t as [|c t]; [now elim Ne|]. inversion F; subst. now exists c, t.
  - intros (x & ds & -> & _). eexists. eexists. split; reflexivity.
  - intros (x & ds & -> & _). eexists. eexists. split; reflexivity.
  - intros (x & ds & -> & _). eexists. eexists. split; reflexivity.
  - exact (real_start t).
  - intros [<-|[]]; eexists; eexists; split; reflexivity.
  - intros [<-|[]]; eexists; eexists; split; reflexivity.
  - intros [<-|[]]; eexists; eexists; split; reflexivity.
  - intros [<-|[]]; eexists; eexists; split; reflexivity.
  - intros [<-|[]]; eexists; eexists; split; reflexivity.
  - intros (x & j & -> & [H|[Ne F]] & _).
    + apply real_start in H. destruct H as (c & y & -> & H). now exists c, (y ++ [j]).
    + destruct x as [|c x]; [now elim Ne|]. inversion F; subst. exists c, (x ++ [j]). split; [reflexivity|now left].
  - intros (c & x & -> & H & _). now exists c, x.
  - intros (x & -> & _). now exists 95%N, x.
  - intros (x & -> & _). now exists 35%N, x.
  - intros [H _]. cbn [map In] in H. destruct H as [<-|[<-|[<-|[<-|[<-|[<-|[<-|[<-|[]]]]]]]]]; eexists; eexists; (split; [reflexivity|]); vm_compute; tauto.
  - intros [<-|[]]; eexists; eexists; split; reflexivity.
  - intros [<-|[]]; eexists; eexists; split; reflexivity.
  - intros [<-|[]]; eexists; eexists; split; reflexivity.
  - intros (a & b & c & d & sp & i & f & -> & H & _). exists a, ([b; c; d] ++ sp ++ [i; f]). split; [reflexivity|exact H].
  - cbn [fixed_texts map In]. intros [<-|[<-|[<-|[<-|[<-|[<-|[]]]]]]]; eexists; eexists; (split; [reflexivity|]); vm_compute; tauto.
  - intros (x & -> & _). now exists 10%N, x.
  - intros ->. now exists 92%N, [10%N].
  - intros [<-|[]]; eexists; eexists; split; reflexivity.
  - intros [<-|[]]; eexists; eexists; split; reflexivity.
Qed.
Lemma not_start k c s : ~ starts k c -> ~ some_text k (c :: s).
Proof. intros H (t & r & E & Sh). apply shape_start in Sh. destruct Sh as (x & t' & -> & St). injection E as <- _. contradiction. Qed.
