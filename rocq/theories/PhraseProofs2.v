(** What the parser of expressions finds is what the tokens say. *)
From Coq Require Import String Ascii List NArith PeanoNat Bool Lia.
From Verif Require Import PyBase LexModel DrelModel PhraseModel PhraseSpec PhraseProofs.
Import ListNotations.
Open Scope nat_scope.

Definition num (l : rule) : nat :=
  match l with OrTest => 0 | AndTest => 1 | NotTest => 2 | Comparison => 3 | AExpression => 4
  | MExpression => 5 | UExpression => 6 | Power => 7 | Primary => 8 end.
Definition left_rule (l : rule) : bool :=
  match l with OrTest | AndTest | AExpression | MExpression => true | _ => false end.

Lemma kind_is_eq k k' : kind_is k k' = true -> k' = k.
Proof. destruct k, k'; cbn [kind_is]; intros E; try discriminate E; auto. apply N.eqb_eq in E. now subst. Qed.
Lemma at_kind_Some k ts r : at_kind k ts = Some r -> exists v, ts = (k, v) :: r.
Proof.
  destruct ts as [|[k' v] ts]; cbn [at_kind]; [discriminate|].
  destruct (kind_is k k') eqn:E; [|discriminate]. intros [= ->]. apply kind_is_eq in E. subst. now exists v.
Qed.
Lemma expect_Ret {A} k (x y : A) ts r : expect k x ts = Ret (y, r) -> y = x /\ exists v, ts = (k, v) :: r.
Proof.
  destruct ts as [|[k' v] ts]; cbn [expect]; [discriminate|].
  destruct (kind_is k k') eqn:E; [|discriminate]. intros [= -> ->]. apply kind_is_eq in E. subst. split; [auto|now exists v].
Qed.
Lemma skip_nl_split ts : exists n, newlines n /\ ts = n ++ skip_nl ts.
Proof.
  induction ts as [|[k v] ts (n & N & E)]; [exists []; split; [constructor|auto]|].
  destruct k; try (exists []; split; [constructor|reflexivity]).
  exists ((NEWLINE, v) :: n). split; [constructor; auto|]. cbn [skip_nl app]. now rewrite <- E.
Qed.
Lemma bind_Ret {A B} (a : outcome A) (k : A -> outcome B) y : obind a k = Ret y -> exists x, a = Ret x /\ k x = Ret y.
Proof. destruct a as [x|e]; cbn [obind]; [eauto|discriminate]. Qed.
Lemma in_char c s : existsb (N.eqb c) s = true -> In c s.
Proof. rewrite existsb_exists. intros (x & H & E). apply N.eqb_eq in E. now subst. Qed.

Ltac one_tok := match goal with |- exists t, ?x :: _ = _ /\ _ => exists [x] end.
Ltac two_toks := match goal with |- exists t, ?x :: ?y :: _ = _ /\ _ => exists [x; y] end.

Lemma string_literal_Some ts s r : string_literal ts = Some (s, r) -> exists t, ts = t ++ r /\ a_string s t.
Proof.
  destruct ts as [|[k v] [|[k2 v2] ts]]; cbn [string_literal]; [discriminate| |].
  - destruct k; try discriminate; intros [= -> ->]; one_tok; (split; [reflexivity|apply A_plain; auto]).
  - destruct k; try discriminate.
    + intros [= -> <-]. one_tok; (split; [reflexivity|apply A_plain; auto]).
    + intros [= -> <-]. one_tok; (split; [reflexivity|apply A_plain; auto]).
    + destruct k2; try discriminate; intros [= <- ->]; two_toks; (split; [reflexivity|apply A_prefix; auto]).
Qed.
Lemma literal_Some ts s r : literal ts = Some (s, r) ->
  exists t, ts = t ++ r /\ says 8 (XLit s) t.
Proof.
  destruct (string_literal ts) as [[s' r']|] eqn:E.
  - intros L. assert (literal ts = Some (s', r')) as L2.
    { destruct ts as [|[k v] ts]; cbn [literal]; [exact E|].
      destruct k; try exact E; discriminate E. }
    rewrite L in L2. injection L2 as -> ->. destruct (string_literal_Some _ _ _ E) as (t & -> & H).
    exists t. split; [auto|now apply Y_string].
  - destruct ts as [|[k v] ts]; [discriminate|].
    destruct k; cbn [literal]; try (rewrite E; discriminate); intros [= -> ->];
      (one_tok; (split; [reflexivity|apply Y_number; unfold number_kinds; cbn [In]; auto 9])).
Qed.

Lemma says_any n c ts : says 8 c ts -> n <= 8 -> says n c ts.
Proof.
  intros H L. replace n with (8 - (8 - n)) by lia. generalize (8 - n). intros k. induction k as [|k IH].
  - now rewrite Nat.sub_0_r.
  - destruct (Nat.le_gt_cases 8 k) as [G|G].
    + replace (8 - S k) with (8 - k) by lia. exact IH.
    + apply Y_closer; [lia|]. replace (S (8 - S k)) with (8 - k) by lia. exact IH.
Qed.

Lemma left_op_operator l t s : left_op l t = Some s -> left_rule l = true /\ operator (num l) (num l) (num (tighter l)) [t] s.
Proof.
  destruct t as [k v]. destruct l; unfold left_op; cbn [fst snd num tighter left_rule]; try (destruct k; discriminate).
  - destruct k; try discriminate; intros [= <-]; (split; [auto|apply O_or; auto]).
  - destruct k; try discriminate; intros [= <-]; (split; [auto|apply O_and; auto]).
  - destruct k; try discriminate. destruct (existsb _ _) eqn:E; [|discriminate]. intros [= <-]. split; [auto|]. apply O_sum.
    apply in_char in E. vm_compute in E. cbn [In]. intuition congruence.
  - destruct k; try discriminate. destruct (existsb _ _) eqn:E; [|discriminate]. intros [= <-]. split; [auto|]. apply O_product.
    apply in_char in E. vm_compute in E. cbn [In]. intuition congruence.
Qed.
Lemma comp_op_operator ts s r : comp_op ts = Ret (Some (s, r)) -> exists t, ts = t ++ r /\ operator 3 4 4 t s.
Proof.
  destruct ts as [|[k v] ts]; cbn [comp_op]; [discriminate|].
  destruct k; try discriminate; try (intros [= -> ->]; one_tok; (split; [reflexivity|apply O_compare; cbn [In]; auto 9])).
  - destruct ts as [|[k2 v2] ts]; [discriminate|]. destruct k2; try discriminate. intros [= <- ->].
    two_toks; (split; [reflexivity|apply O_not_in]).
  - destruct (existsb _ _) eqn:E; [|discriminate]. intros [= -> ->].
    one_tok; (split; [reflexivity|]). apply O_compare. apply in_char in E. vm_compute in E. cbn [In]. intuition congruence.
Qed.

Definition sound_at (f : nat) : Prop :=
  (forall l ts c r, p_rule f l ts = Ret (c, r) -> exists t, ts = t ++ r /\ says (num l) c t) /\
  (forall l acc ts c r, left_rule l = true -> p_more f l acc ts = Ret (c, r) ->
     exists t, ts = t ++ r /\ forall ta, says (num l) acc ta -> says (num l) c (ta ++ t)) /\
  (forall acc ts c r, p_post f acc ts = Ret (c, r) ->
     exists t, ts = t ++ r /\ forall ta, says 8 acc ta -> says 8 c (ta ++ t)) /\
  (forall ts c r, p_atom f ts = Ret (c, r) -> exists t, ts = t ++ r /\ says 8 c t) /\
  (forall nl ts l r, p_list f nl ts = Ret (l, r) -> exists t, ts = t ++ r /\ says_all nl l t) /\
  (forall ts l r, p_table f ts = Ret (l, r) -> exists t, ts = t ++ r /\ says_entries l t) /\
  (forall ts l r, p_items f ts = Ret (l, r) -> exists t, ts = t ++ r /\ says_items l t) /\
  (forall ts i r, p_item f ts = Ret (i, r) -> exists t, ts = t ++ r /\ says_item i t) /\
  (forall a ts i r, p_slice f a ts = Ret (i, r) -> exists t, ts = t ++ r /\
     forall ta v, says_opt a ta -> says_item i (ta ++ (LIT 58, v) :: t)).

Lemma says_more l op s a b ta tb : operator (num l) (num l) (num (tighter l)) [op] s ->
  says (num l) a ta -> says (num (tighter l)) b tb -> says (num l) (XBin s a b) (ta ++ op :: tb).
Proof. intros O A B. exact (Y_op _ _ _ _ _ _ _ _ _ O A B). Qed.

Lemma says_bracketed p l v w ts te : says 8 p ts -> says_items l te ->
  says 8 (bracketed p l) (ts ++ (LIT 91, v) :: te ++ [(LIT 93, w)]).
Proof.
  intros P I. inversion I as [i ti H E1 E2|i l' v' ti ts' H H2 E1 E2]; subst.
  - destruct i as [e|a b c]; cbn [bracketed].
    + inversion H; subst. now apply Y_subscript.
    + now apply Y_range.
  - assert (bracketed p (i :: l') = XSlices p (i :: l')) as ->.
    { inversion H2; subst; destruct i; reflexivity. }
    apply Y_slices; [auto|exact I|]. inversion H2; subst; cbn [length]; lia.
Qed.

Ltac ren E := let x := fresh "x" in let r0 := fresh "r" in let E1 := fresh "E" in
  apply bind_Ret in E as ([x r0] & E1 & E); cbn [fst snd pfst] in E.

Lemma sound_all f : sound_at f.
Proof.
  induction f as [|f (R & M & P & A & L & T & Is & I & Sl)].
  { repeat apply conj; intros; discriminate. }
  repeat apply conj.
  - intros l ts c r E. rewrite p_rule_S in E. destruct l.
    + ren E. destruct (R _ _ _ _ E0) as (t1 & -> & S1). destruct (M OrTest _ _ _ _ eq_refl E) as (t2 & -> & S2).
      exists (t1 ++ t2). rewrite app_assoc. split; [auto|]. apply S2. apply Y_closer; [cbn; lia|exact S1].
    + ren E. destruct (R _ _ _ _ E0) as (t1 & -> & S1). destruct (M AndTest _ _ _ _ eq_refl E) as (t2 & -> & S2).
      exists (t1 ++ t2). rewrite app_assoc. split; [auto|]. apply S2. apply Y_closer; [cbn; lia|exact S1].
    + assert (p_rule f Comparison ts = Ret (c, r) -> exists t, ts = t ++ r /\ says 2 c t) as D.
      { intros E2. destruct (R _ _ _ _ E2) as (t1 & -> & S1). exists t1. split; [auto|]. apply Y_closer; [lia|exact S1]. }
      destruct ts as [|[k v] ts]; [auto|]. destruct k; auto.
      ren E. injection E as <- <-. destruct (R _ _ _ _ E0) as (t1 & -> & S1). exists ((NOT, v) :: t1). split; [auto|]. apply Y_not. exact S1.
    + ren E. destruct (R _ _ _ _ E0) as (t1 & -> & S1).
      apply bind_Ret in E as ([[op r1]|] & E1 & E).
      * ren E. injection E as <- <-. destruct (comp_op_operator _ _ _ E1) as (to & -> & O). destruct (R _ _ _ _ E2) as (t2 & -> & S2).
        exists (t1 ++ to ++ t2). rewrite <- !app_assoc. split; [auto|]. exact (Y_op _ _ _ _ _ _ _ _ _ O S1 S2).
      * injection E as <- <-. exists t1. split; [auto|]. apply Y_closer; [cbn; lia|exact S1].
    + ren E. destruct (R _ _ _ _ E0) as (t1 & -> & S1). destruct (M AExpression _ _ _ _ eq_refl E) as (t2 & -> & S2).
      exists (t1 ++ t2). rewrite app_assoc. split; [auto|]. apply S2. apply Y_closer; [cbn; lia|exact S1].
    + ren E. destruct (R _ _ _ _ E0) as (t1 & -> & S1). destruct (M MExpression _ _ _ _ eq_refl E) as (t2 & -> & S2).
      exists (t1 ++ t2). rewrite app_assoc. split; [auto|]. apply S2. apply Y_closer; [cbn; lia|exact S1].
    + assert (p_rule f Power ts = Ret (c, r) -> exists t, ts = t ++ r /\ says 6 c t) as D.
      { intros E2. destruct (R _ _ _ _ E2) as (t1 & -> & S1). exists t1. split; [auto|]. apply Y_closer; [lia|exact S1]. }
      destruct ts as [|[k v] ts]; [auto|]. destruct k; auto.
      destruct (existsb _ _) eqn:X; [|auto]. ren E. injection E as <- <-. destruct (R _ _ _ _ E0) as (t1 & -> & S1).
      eexists. split; [|apply Y_sign; [|exact S1]]; [reflexivity|]. apply in_char in X. vm_compute in X. cbn [In]. intuition congruence.
    + ren E. destruct (R _ _ _ _ E0) as (t1 & -> & S1).
      assert (Ret (x, r0) = Ret (c, r) -> exists t, t1 ++ r0 = t ++ r /\ says 7 c t) as D.
      { intros [= -> ->]. exists t1. split; [auto|]. apply Y_closer; [lia|exact S1]. }
      destruct r0 as [|[k v] r0]; [auto|]. destruct k; auto.
      ren E. injection E as <- <-. destruct (R _ _ _ _ E1) as (t2 & -> & S2).
      exists (t1 ++ [(POWER, v)] ++ t2). rewrite <- !app_assoc. split; [auto|]. exact (Y_op _ _ _ _ _ _ _ _ _ (O_power v) S1 S2).
    + ren E. destruct (A _ _ _ E0) as (t1 & -> & S1). destruct (P _ _ _ _ E) as (t2 & -> & S2).
      exists (t1 ++ t2). rewrite app_assoc. split; [auto|]. exact (S2 _ S1).
  - intros l acc ts c r LR E. rewrite p_more_S in E.
    assert (Ret (acc, ts) = Ret (c, r) -> exists t, ts = t ++ r /\ forall ta, says (num l) acc ta -> says (num l) c (ta ++ t)) as D.
    { intros [= -> ->]. exists []. split; [auto|]. intros ta H. now rewrite app_nil_r. }
    destruct ts as [|t ts]; [auto|]. destruct (left_op l t) as [s|] eqn:O; [|auto].
    ren E. destruct (left_op_operator _ _ _ O) as (_ & O'). destruct (R _ _ _ _ E0) as (t1 & -> & S1).
    destruct (M _ _ _ _ _ LR E) as (t2 & -> & S2). exists (t :: t1 ++ t2). split; [cbn; now rewrite app_assoc|].
    intros ta H. replace (ta ++ t :: t1 ++ t2) with ((ta ++ t :: t1) ++ t2) by (rewrite <- app_assoc; reflexivity).
    apply S2. now apply says_more.
  - intros acc ts c r E. rewrite p_post_S in E.
    assert (Ret (acc, ts) = Ret (c, r) -> exists t, ts = t ++ r /\ forall ta, says 8 acc ta -> says 8 c (ta ++ t)) as D.
    { intros [= -> ->]. exists []. split; [auto|]. intros ta H. now rewrite app_nil_r. }
    destruct ts as [|[k v] ts]; [auto|]. destruct k as [ | | | | | | | | | | | | | | | | | | | | | | | | | | | | | | | | | | | | | | | | | | | | | |ch]; auto.
    + destruct (P _ _ _ _ E) as (t2 & -> & S2). exists ((REAL, v) :: t2). split; [auto|]. intros ta H.
      replace (ta ++ (REAL, v) :: t2) with ((ta ++ [(REAL, v)]) ++ t2) by (rewrite <- app_assoc; reflexivity).
      apply S2. assert (tail v = skipn 1 v) as -> by (destruct v; reflexivity). now apply Y_attr_number.
    + destruct (N.eqb_spec ch 46) as [->|_]; [|destruct (N.eqb_spec ch 91) as [->|_]; [|auto]].
      * destruct ts as [|[k s] ts]; [discriminate|]. destruct k; try discriminate.
        destruct (P _ _ _ _ E) as (t2 & -> & S2). exists ((LIT 46, v) :: (ID, s) :: t2). split; [auto|]. intros ta H.
        replace (ta ++ (LIT 46, v) :: (ID, s) :: t2) with ((ta ++ [(LIT 46, v); (ID, s)]) ++ t2) by (rewrite <- app_assoc; reflexivity).
        apply S2. now apply Y_attr.
      * ren E. ren E. destruct (Is _ _ _ E0) as (t1 & -> & S1). apply expect_Ret in E1 as (-> & w & ->).
        destruct (P _ _ _ _ E) as (t2 & -> & S2). exists ((LIT 91, v) :: t1 ++ (LIT 93, w) :: t2).
        split; [cbn; now rewrite <- app_assoc|]. intros ta H.
        replace (ta ++ (LIT 91, v) :: t1 ++ (LIT 93, w) :: t2) with ((ta ++ (LIT 91, v) :: t1 ++ [(LIT 93, w)]) ++ t2)
          by (rewrite <- !app_assoc; cbn; rewrite <- app_assoc; reflexivity).
        apply S2. now apply says_bracketed.
  - intros ts c r E. rewrite p_atom_S in E.
    assert (match literal ts with Some (v, r) => Ret (XLit v, r) | None => Raise SyntaxErr end = Ret (c, r) ->
            exists t, ts = t ++ r /\ says 8 c t) as D.
    { destruct (literal ts) as [[v r']|] eqn:X; [|discriminate]. intros [= <- <-]. exact (literal_Some _ _ _ X). }
    destruct ts as [|[k v] ts]; [auto|]. destruct k as [ | | | | | | | | | | | | | | | | | | | | | | | | | | | | | | | | | | | | | | | | | | | | | |ch]; auto.
    + destruct (at_kind OPEN_PAREN ts) as [r2|] eqn:X1.
      * apply at_kind_Some in X1 as (v1 & ->). destruct (at_kind CLOSE_PAREN r2) as [r3|] eqn:X2.
        -- apply at_kind_Some in X2 as (v2 & ->). injection E as <- <-. eexists. split; [|apply Y_call0]. reflexivity.
        -- ren E. apply expect_Ret in E as (-> & w & ->). destruct (L _ _ _ _ E0) as (t1 & -> & S1).
           eexists. split; [|apply Y_call; exact S1]. cbn. now rewrite <- app_assoc.
      * injection E as <- <-. eexists. split; [|apply Y_name]. reflexivity.
    + injection E as <- <-. eexists. split; [|apply Y_tag]. reflexivity.
    + destruct (at_kind CLOSE_PAREN ts) as [r2|] eqn:X2.
      * apply at_kind_Some in X2 as (v2 & ->). injection E as <- <-. eexists. split; [|apply Y_group0]. reflexivity.
      * ren E. apply expect_Ret in E as (-> & w & ->). destruct (L _ _ _ _ E0) as (t1 & -> & S1).
        eexists. split; [|apply Y_group; exact S1]. cbn. now rewrite <- app_assoc.
    + destruct (N.eqb_spec ch 96) as [->|_]; [|destruct (N.eqb_spec ch 91) as [->|_]; [|destruct (N.eqb_spec ch 123) as [->|_]; [|discriminate]]].
      * ren E. apply expect_Ret in E as (-> & w & ->). destruct (L _ _ _ _ E0) as (t1 & -> & S1).
        eexists. split; [|apply Y_conv; exact S1]. cbn. now rewrite <- app_assoc.
      * destruct (skip_nl_split ts) as (n1 & N1 & E1). destruct (at_kind square_close (skip_nl ts)) as [r2|] eqn:X2.
        -- apply at_kind_Some in X2 as (v2 & X2). injection E as <- <-. rewrite E1, X2.
           eexists. split; [|apply Y_list0; exact N1]. cbn. rewrite <- app_assoc. reflexivity.
        -- ren E. apply expect_Ret in E as (-> & w & E). destruct (skip_nl_split r0) as (n2 & N2 & E2).
           destruct (L _ _ _ _ E0) as (t1 & E3 & S1). rewrite E1, E3, E2, E.
           eexists. split; [|apply (Y_list v w n1 n2); eauto]. cbn. rewrite <- !app_assoc. reflexivity.
      * destruct (skip_nl_split ts) as (n1 & N1 & E1). destruct (at_kind curly_close (skip_nl ts)) as [r2|] eqn:X2.
        -- apply at_kind_Some in X2 as (v2 & X2). injection E as <- <-. rewrite E1, X2.
           eexists. split; [|apply Y_table0; exact N1]. cbn. rewrite <- app_assoc. reflexivity.
        -- ren E. apply expect_Ret in E as (-> & w & E). destruct (skip_nl_split r0) as (n2 & N2 & E2).
           destruct (T _ _ _ E0) as (t1 & E3 & S1). rewrite E1, E3, E2, E.
           eexists. split; [|apply (Y_table v w n1 n2); eauto]. cbn. rewrite <- !app_assoc. reflexivity.
  - intros nl ts l r E. rewrite p_list_S in E. ren E. destruct (R _ _ _ _ E0) as (t1 & -> & S1).
    destruct (at_kind comma r0) as [r1|] eqn:X.
    + apply at_kind_Some in X as (v & ->). ren E. injection E as <- <-.
      assert (exists n, newlines n /\ (nl = false -> n = []) /\ r1 = n ++ (if nl then skip_nl r1 else r1)) as (n & N1 & N2 & N3).
      { destruct nl.
        - destruct (skip_nl_split r1) as (n & N1 & E3). exists n. split; [auto|]. split; [discriminate|auto].
        - exists []. split; [constructor|]. split; auto. }
      destruct (L _ _ _ _ E1) as (t2 & E3 & S2). pose proof (eq_trans N3 (f_equal (app n) E3)) as N4. rewrite N4.
      eexists. split; [|apply (Y_next nl x x0 v n t1 t2); eauto]. rewrite <- !app_assoc. cbn. now rewrite <- app_assoc.
    + injection E as <- <-. exists t1. split; [auto|]. now apply Y_last.
  - intros ts l r E. rewrite p_table_S in E. destruct (string_literal ts) as [[k r0]|] eqn:X; [|discriminate].
    destruct (string_literal_Some _ _ _ X) as (tk & -> & SK). destruct (at_kind colon r0) as [r2|] eqn:X2; [|discriminate].
    apply at_kind_Some in X2 as (v & ->). ren E. destruct (R _ _ _ _ E0) as (t1 & -> & S1).
    destruct (at_kind comma r0) as [r3|] eqn:X3.
    + apply at_kind_Some in X3 as (w & ->). ren E. injection E as <- <-. destruct (skip_nl_split r3) as (n & N1 & E3).
      destruct (T _ _ _ E1) as (t2 & E4 & S2). rewrite E3, E4.
      eexists. split; [|apply (Y_entries k x x0 v w n tk t1 t2); eauto]. rewrite <- !app_assoc. cbn. rewrite <- !app_assoc. cbn. now rewrite <- app_assoc.
    + injection E as <- <-. eexists. split; [|apply (Y_entry k x v tk t1); eauto]. rewrite <- !app_assoc. reflexivity.
  - intros ts l r E. rewrite p_items_S in E. ren E. destruct (I _ _ _ E0) as (t1 & -> & S1).
    destruct (at_kind comma r0) as [r1|] eqn:X.
    + apply at_kind_Some in X as (v & ->). ren E. injection E as <- <-. destruct (Is _ _ _ E1) as (t2 & -> & S2).
      eexists. split; [|apply (Y_items x x0 v t1 t2); eauto]. rewrite <- !app_assoc. reflexivity.
    + injection E as <- <-. exists t1. split; [auto|]. now apply Y_item.
  - intros ts i r E. rewrite p_item_S in E. destruct (at_kind colon ts) as [r0|] eqn:X.
    + apply at_kind_Some in X as (v & ->). destruct (Sl _ _ _ _ E) as (t1 & -> & S1).
      exists ((LIT 58, v) :: t1). split; [auto|]. exact (S1 [] v Y_none).
    + ren E. destruct (R _ _ _ _ E0) as (t1 & -> & S1). destruct (at_kind colon r0) as [r1|] eqn:X1.
      * apply at_kind_Some in X1 as (v & ->). destruct (Sl _ _ _ _ E) as (t2 & -> & S2).
        exists (t1 ++ (LIT 58, v) :: t2). rewrite <- app_assoc. split; [auto|]. exact (S2 t1 v (Y_some _ _ S1)).
      * injection E as <- <-. exists t1. split; [auto|]. now apply Y_single.
  - intros a ts i r E. rewrite p_slice_S in E. destruct (at_kind colon ts) as [r0|] eqn:X.
    + apply at_kind_Some in X as (w & ->). ren E. injection E as <- <-. destruct (R _ _ _ _ E0) as (t1 & -> & S1).
      exists ((LIT 58, w) :: t1). split; [auto|]. intros ta v H. exact (Y_long a None x v w ta [] t1 H Y_none S1).
    + assert (Ret (IRange a None None, ts) = Ret (i, r) -> exists t, ts = t ++ r /\
     forall ta v, says_opt a ta -> says_item i (ta ++ (LIT 58, v) :: t)) as D.
      { intros [= <- <-]. exists []. split; [auto|]. intros ta v H. exact (Y_short a None v ta [] H Y_none). }
      destruct (at_kind comma ts); [auto|]. destruct (at_kind square_close ts); [auto|].
      ren E. destruct (R _ _ _ _ E0) as (t1 & -> & S1). destruct (at_kind colon r0) as [r1|] eqn:X1.
      * apply at_kind_Some in X1 as (w & ->). ren E. injection E as <- <-. destruct (R _ _ _ _ E1) as (t2 & -> & S2).
        exists (t1 ++ (LIT 58, w) :: t2). rewrite <- app_assoc. split; [auto|]. intros ta v H.
        exact (Y_long a (Some x) x0 v w ta t1 t2 H (Y_some _ _ S1) S2).
      * injection E as <- <-. exists t1. split; [auto|]. intros ta v H. exact (Y_short a (Some x) v ta t1 H (Y_some _ _ S1)).
Qed.
