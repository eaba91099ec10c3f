(** The parser of expressions finds exactly what the tokens say, and always ends. *)
From Coq Require Import String Ascii List NArith PeanoNat Bool Lia.
From Verif Require Import PyBase LexModel DrelModel PhraseModel PhraseSpec PhraseProofs PhraseProofs2 PhraseProofs3 PhraseProofs4.
Import ListNotations.
Open Scope nat_scope.

Lemma string_literal_of k tk r : a_string k tk -> string_literal (tk ++ r) = Some (k, r).
Proof. destruct 1 as [k s [-> | ->]|k p s [-> | ->]]; reflexivity. Qed.
Lemma a_string_opens k tk : a_string k tk -> opens 8 tk.
Proof. destruct 1 as [k s [-> | ->]|k p s _]; reflexivity. Qed.
Lemma a_string_len k tk : a_string k tk -> 1 <= length tk.
Proof. destruct 1; cbn [length]; lia. Qed.

Lemma atom_string k tk r g : a_string k tk -> p_atom (S g) (tk ++ r) = Ret (XLit k, r).
Proof. destruct 1 as [k s [-> | ->]|k p s [-> | ->]]; reflexivity. Qed.

Lemma says_found :
  (forall n c ts, says n c ts -> found n c ts) /\
  (forall nl l ts, says_all nl l ts -> found_all nl l ts) /\
  (forall l ts, says_entries l ts -> found_entries l ts) /\
  (forall i ts, says_item i ts -> found_item i ts) /\
  (forall o ts, says_opt o ts -> found_opt o ts) /\
  (forall l ts, says_items l ts -> found_items l ts).
Proof.
  apply says_mut.
  - intros n c ts L _ F. now apply found_closer.
  - intros n l r op s a b ta tb O _ A _ B. exact (found_op _ _ _ _ _ _ _ _ _ O A B).
  - intros v a ts _ F. now apply found_not.
  - intros k v a ts K _ F. now apply found_sign.
  - intros s. apply found_atom; [reflexivity|]. intros rest g S9 L. destruct g; [cbn in L; lia|]. cbn [app]. rewrite p_atom_S, (stops_call _ S9). reflexivity.
  - intros s. apply found_atom; [reflexivity|]. intros rest g S9 L. destruct g; [cbn in L; lia|]. reflexivity.
  - intros k v K. unfold number_kinds in K. cbn [In] in K. apply found_atom.
    + repeat (destruct K as [<-|K]; [reflexivity|]). destruct K.
    + intros rest g S9 L. destruct g; [cbn in L; lia|]. repeat (destruct K as [<-|K]; [reflexivity|]). destruct K.
  - intros s ts A. apply found_atom; [exact (a_string_opens _ _ A)|]. intros rest g S9 L. pose proof (a_string_len _ _ A).
    destruct g; [lia|]. now apply atom_string.
  - intros v w. apply found_atom; [reflexivity|]. intros rest g S9 L. destruct g; [cbn in L; lia|]. reflexivity.
  - intros v w l ts _ (O & F). apply found_atom; [reflexivity|]. intros rest g S9 L. cbn [length] in L. rewrite app_length in L. cbn [length] in L.
    destruct g; [lia|]. cbn [app]. rewrite p_atom_S. rewrite <- app_assoc. rewrite (opens_not_at 0 _ CLOSE_PAREN (opens_app 0 ts _ O) eq_refl).
    rewrite F; [reflexivity|reflexivity|reflexivity|lia].
  - intros v w l ts _ (O & F). apply found_atom; [reflexivity|]. intros rest g S9 L. cbn [length] in L. rewrite app_length in L. cbn [length] in L.
    destruct g; [lia|]. cbn [app]. rewrite p_atom_S. rewrite <- app_assoc. cbn [N.eqb Pos.eqb].
    rewrite F; [reflexivity|reflexivity|reflexivity|lia].
  - intros v w n1 N1. apply found_atom; [reflexivity|]. intros rest g S9 L. cbn [length] in L. destruct g; [lia|].
    cbn [app]. rewrite p_atom_S. rewrite <- app_assoc. cbn [N.eqb Pos.eqb]. rewrite skip_newlines by assumption. reflexivity.
  - intros v w n1 n2 l ts N1 N2 _ (O & F). apply found_atom; [reflexivity|]. intros rest g S9 L. cbn [length] in L. rewrite !app_length in L. cbn [length] in L.
    destruct g; [lia|]. cbn [app]. rewrite p_atom_S. rewrite <- !app_assoc. cbn [N.eqb Pos.eqb].
    rewrite skip_newlines by assumption. rewrite (opens_skip 0 _ (opens_app 0 ts _ O)).
    rewrite (opens_not_at 0 _ square_close (opens_app 0 ts _ O) eq_refl).
    rewrite F; [|destruct N2 as [|[k x] ? H]; [reflexivity|cbn [fst] in H; subst; reflexivity]
                |destruct N2 as [|[k x] ? H]; [reflexivity|cbn [fst] in H; subst; reflexivity]|lia].
    cbn [obind fst snd]. rewrite skip_newlines by assumption. reflexivity.
  - intros v w n1 N1. apply found_atom; [reflexivity|]. intros rest g S9 L. cbn [length] in L. destruct g; [lia|].
    cbn [app]. rewrite p_atom_S. rewrite <- app_assoc. cbn [N.eqb Pos.eqb]. rewrite skip_newlines by assumption. reflexivity.
  - intros v w n1 n2 l ts N1 N2 _ (O & F). apply found_atom; [reflexivity|]. intros rest g S9 L. cbn [length] in L. rewrite !app_length in L. cbn [length] in L.
    destruct g; [lia|]. cbn [app]. rewrite p_atom_S. rewrite <- !app_assoc. cbn [N.eqb Pos.eqb].
    rewrite skip_newlines by assumption. rewrite (opens_skip 0 _ (opens_app 0 ts _ O)).
    rewrite (opens_not_at 0 _ curly_close (opens_app 0 ts _ O) eq_refl).
    rewrite F; [|destruct N2 as [|[k x] ? H]; [reflexivity|cbn [fst] in H; subst; reflexivity]
                |destruct N2 as [|[k x] ? H]; [reflexivity|cbn [fst] in H; subst; reflexivity]|lia].
    cbn [obind fst snd]. rewrite skip_newlines by assumption. reflexivity.
  - intros p s v ts _ P. apply (found_post p); [exact P|reflexivity|cbn; lia|]. intros rest f g r S9 T NF L. cbn [length] in L.
    destruct g as [|g]; [lia|]. change (p_post g (XAttr p s) rest = r). eapply below_eq; [apply (post_mono f); lia|exact T|exact NF].
  - intros p v ts _ P. apply (found_post p); [exact P|reflexivity|cbn; lia|]. intros rest f g r S9 T NF L. cbn [length] in L.
    destruct g as [|g]; [lia|]. change (p_post g (XAttr p (tail v)) rest = r). eapply below_eq; [apply (post_mono f); lia|destruct v; exact T|exact NF].
  - intros p e v w ts te _ P _ E. exact (found_bracketed p [IExpr e] _ v w ts te P (found_item1 _ _ (found_single _ _ E)) eq_refl).
  - intros p a b c v w ts te _ P _ E. exact (found_bracketed p [IRange a b c] _ v w ts te P (found_item1 _ _ E) eq_refl).
  - intros p l v w ts te _ P _ E L. apply (found_bracketed p l _ v w ts te P E).
    destruct l as [|i [|j l]]; cbn [length] in L; try lia. destruct i; reflexivity.
  - intros f v w. apply found_atom; [reflexivity|]. intros rest g S9 L. destruct g; [cbn in L; lia|]. reflexivity.
  - intros f v w l ts _ (O & F). apply found_atom; [reflexivity|]. intros rest g S9 L. cbn [length] in L. rewrite app_length in L. cbn [length] in L.
    destruct g; [lia|]. cbn [app]. rewrite p_atom_S. rewrite at_same by reflexivity. rewrite <- app_assoc. rewrite (opens_not_at 0 _ CLOSE_PAREN (opens_app 0 ts _ O) eq_refl).
    rewrite F; [reflexivity|reflexivity|reflexivity|lia].
  - intros nl e te _ F. split; [exact (proj1 F)|]. intros rest g St C L. destruct g as [|g]; [lia|]. rewrite p_list_S.
    rewrite (found_stop 0 _ _ OrTest _ g F eq_refl St) by lia. cbn [obind fst snd]. rewrite C. reflexivity.
  - intros nl e l v n te ts _ F N NN _ (O & Fs). split; [exact (opens_app 0 te _ (proj1 F))|]. intros rest g St C L.
    rewrite app_length in L. cbn [length] in L. rewrite app_length in L. destruct g as [|g]; [lia|]. rewrite p_list_S. rewrite <- app_assoc. cbn [app].
    rewrite (found_stop 0 _ _ OrTest ((LIT 44, v) :: (n ++ ts) ++ rest) g F eq_refl eq_refl) by lia. cbn [obind fst snd]. rewrite at_same by reflexivity.
    assert ((if nl then skip_nl ((n ++ ts) ++ rest) else (n ++ ts) ++ rest) = ts ++ rest) as ->.
    { destruct nl.
      - rewrite <- app_assoc, skip_newlines by assumption. exact (opens_skip 0 _ (opens_app 0 ts _ O)).
      - rewrite (NN eq_refl). reflexivity. }
    rewrite Fs by (auto; lia). reflexivity.
  - intros k e v tk te A _ F. split; [exact (opens_le 0 8 _ (Nat.le_0_l 8) (opens_app 8 tk _ (a_string_opens _ _ A)))|]. intros rest g St C L.
    rewrite app_length in L. cbn [length] in L. destruct g as [|g]; [lia|]. rewrite p_table_S. rewrite <- app_assoc. rewrite (string_literal_of k tk) by assumption.
    cbn [app]. rewrite at_same by reflexivity. rewrite (found_stop 0 _ _ OrTest _ g F eq_refl St) by lia. cbn [obind fst snd]. rewrite C. reflexivity.
  - intros k e l v w n tk te ts A _ F N _ (O & Fs). split; [exact (opens_le 0 8 _ (Nat.le_0_l 8) (opens_app 8 tk _ (a_string_opens _ _ A)))|]. intros rest g St C L.
    rewrite app_length in L. cbn [length] in L. rewrite app_length in L. cbn [length] in L. rewrite app_length in L.
    destruct g as [|g]; [lia|]. rewrite p_table_S. rewrite <- app_assoc. rewrite (string_literal_of k tk) by assumption.
    cbn [app]. rewrite at_same by reflexivity. rewrite <- app_assoc. cbn [app].
    rewrite (found_stop 0 _ _ OrTest ((LIT 44, w) :: (n ++ ts) ++ rest) g F eq_refl eq_refl) by lia. cbn [obind fst snd]. rewrite at_same by reflexivity.
    rewrite <- app_assoc, skip_newlines by assumption. rewrite (opens_skip 0 _ (opens_app 0 ts _ O)). rewrite Fs by (auto; lia). reflexivity.
  - intros e te _ F. now apply found_single.
  - intros a b v ta tb _ A _ B. pose proof (found_range a b None v ta tb [] A B eq_refl) as H. now rewrite app_nil_r in H.
  - intros a b c v w ta tb tc _ A _ B _ C. apply (found_range a b (Some c) v ta tb ((LIT 58, w) :: tc) A B). exists w, tc. auto.
  - reflexivity.
  - intros e te _ F. exact F.
  - intros i ti _ F. now apply found_item1.
  - intros i l v ti ts _ F _ Fs. now apply found_item2.
Qed.

Lemma expression_complete c ts : says 0 c ts -> expression ts = Ret c.
Proof.
  intros H. unfold expression, enough. pose proof (found_stop 0 c ts OrTest [] (14 * S (length ts)) (proj1 says_found _ _ _ H) eq_refl I ltac:(lia)) as E.
  rewrite app_nil_r in E. rewrite E. reflexivity.
Qed.
Lemma expression_sound c ts : expression ts = Ret c -> says 0 c ts.
Proof.
  unfold expression. intros E. apply bind_Ret in E as ([x r] & E1 & E). cbn [fst snd] in E. destruct r; [|discriminate]. injection E as ->.
  destruct (proj1 (sound_all _) _ _ _ _ E1) as (t & -> & H). rewrite app_nil_r. exact H.
Qed.

(** ** The parser ends *)
Definition fine {A} (x : outcome A) : Prop := x <> Raise OutOfFuel.
Definition ends_at (f : nat) : Prop :=
  (forall l ts, 14 * length ts + (10 - num l) <= f -> fine (p_rule f l ts)) /\
  (forall l acc ts, left_rule l = true -> 14 * length ts + 1 <= f -> fine (p_more f l acc ts)) /\
  (forall acc ts, 14 * length ts + 1 <= f -> fine (p_post f acc ts)) /\
  (forall ts, 14 * length ts + 1 <= f -> fine (p_atom f ts)) /\
  (forall nl ts, 14 * length ts + 11 <= f -> fine (p_list f nl ts)) /\
  (forall ts, 14 * length ts + 11 <= f -> fine (p_table f ts)) /\
  (forall ts, 14 * length ts + 13 <= f -> fine (p_items f ts)) /\
  (forall ts, 14 * length ts + 12 <= f -> fine (p_item f ts)) /\
  (forall a ts, 14 * length ts + 12 <= f -> fine (p_slice f a ts)).

Lemma fine_bind {A B} (a : outcome A) (k : A -> outcome B) : fine a -> (forall x, a = Ret x -> fine (k x)) -> fine (obind a k).
Proof. destruct a as [x|e]; cbn [obind]; [auto|]. unfold fine. congruence. Qed.
Lemma fine_Ret {A} (x : A) : fine (Ret x). Proof. discriminate. Qed.
Lemma fine_syntax {A} : fine (@Raise A SyntaxErr). Proof. discriminate. Qed.
Lemma fine_expect {A} k (x : A) ts : fine (expect k x ts).
Proof. destruct ts as [|[k' v] r]; cbn [expect]; [discriminate|]. destruct (kind_is k k'); discriminate. Qed.

Lemma opens_len n ts : opens n ts -> 1 <= length ts.
Proof. destruct ts; [intros []|cbn; lia]. Qed.
Lemma rule_len f l ts c r : p_rule f l ts = Ret (c, r) -> length r < length ts.
Proof. intros E. destruct (proj1 (sound_all f) _ _ _ _ E) as (t & -> & H). apply says_opens, opens_len in H. rewrite app_length. lia. Qed.
Lemma atom_len f ts c r : p_atom f ts = Ret (c, r) -> length r < length ts.
Proof.
  intros E. destruct (sound_all f) as (_ & _ & _ & A & _). destruct (A _ _ _ E) as (t & -> & H).
  apply says_opens, opens_len in H. rewrite app_length. lia.
Qed.
Lemma items_len f ts l r : p_items f ts = Ret (l, r) -> length r <= length ts.
Proof.
  intros E. destruct (sound_all f) as (_ & _ & _ & _ & _ & _ & A & _). destruct (A _ _ _ E) as (t & -> & H). rewrite app_length. lia.
Qed.
Lemma item_len f ts l r : p_item f ts = Ret (l, r) -> length r <= length ts.
Proof.
  intros E. destruct (sound_all f) as (_ & _ & _ & _ & _ & _ & _ & A & _). destruct (A _ _ _ E) as (t & -> & H). rewrite app_length. lia.
Qed.
Lemma at_len k ts r : at_kind k ts = Some r -> length r < length ts.
Proof. intros (v & ->)%at_kind_Some. cbn; lia. Qed.
Lemma expect_len {A} k (x y : A) ts r : expect k x ts = Ret (y, r) -> length r < length ts.
Proof. intros (_ & v & ->)%expect_Ret. cbn; lia. Qed.
Lemma skip_len ts : length (skip_nl ts) <= length ts.
Proof. destruct (skip_nl_split ts) as (n & _ & E). rewrite E at 2. rewrite app_length. lia. Qed.
Lemma string_len ts s r : string_literal ts = Some (s, r) -> length r < length ts.
Proof. intros (t & -> & H)%string_literal_Some. apply a_string_len in H. rewrite app_length. lia. Qed.
Lemma comp_len ts s r : comp_op ts = Ret (Some (s, r)) -> length r < length ts.
Proof. intros (t & -> & H)%comp_op_operator. apply operator_levels in H as (_ & _ & _ & _ & H). destruct t; [contradiction|]. rewrite app_length. cbn; lia. Qed.
Lemma comp_fine ts : fine (comp_op ts).
Proof.
  destruct ts as [|[k v] r]; [discriminate|]. destruct k; cbn [comp_op]; try discriminate.
  destruct r as [|[k2 v2] r]; [discriminate|]. destruct k2; discriminate.
Qed.

Lemma ends_all f : ends_at f.
Proof.
  induction f as [|f (R & M & P & A & L & T & Is & I & Sl)].
  { repeat apply conj; intros; try lia; destruct l; cbn [num] in *; lia. }
  repeat apply conj.
  - intros l ts B. rewrite p_rule_S. destruct l; cbn [num] in B.
    + apply fine_bind; [apply R; cbn [num]; lia|]. intros [x r] E. apply rule_len in E. cbn [fst snd]. apply M; [auto|lia].
    + apply fine_bind; [apply R; cbn [num]; lia|]. intros [x r] E. apply rule_len in E. cbn [fst snd]. apply M; [auto|lia].
    + assert (fine (p_rule f Comparison ts)) as D by (apply R; cbn [num]; lia).
      destruct ts as [|[k v] r]; [auto|]. destruct k; auto. cbn [length] in B.
      apply fine_bind; [apply R; cbn [num]; lia|]. intros; apply fine_Ret.
    + apply fine_bind; [apply R; cbn [num]; lia|]. intros [x r] E. apply rule_len in E. cbn [fst snd].
      apply fine_bind; [apply comp_fine|]. intros [[op r2]|] E2; [|apply fine_Ret]. apply comp_len in E2.
      apply fine_bind; [apply R; cbn [num]; lia|]. intros; apply fine_Ret.
    + apply fine_bind; [apply R; cbn [num]; lia|]. intros [x r] E. apply rule_len in E. cbn [fst snd]. apply M; [auto|lia].
    + apply fine_bind; [apply R; cbn [num]; lia|]. intros [x r] E. apply rule_len in E. cbn [fst snd]. apply M; [auto|lia].
    + assert (fine (p_rule f Power ts)) as D by (apply R; cbn [num]; lia).
      destruct ts as [|[k v] r]; [auto|]. destruct k; auto. destruct (existsb _ _); [|auto]. cbn [length] in B.
      apply fine_bind; [apply R; cbn [num]; lia|]. intros; apply fine_Ret.
    + apply fine_bind; [apply R; cbn [num]; lia|]. intros [x r] E. apply rule_len in E. cbn [fst snd].
      destruct r as [|[k v] r]; [apply fine_Ret|]. destruct k; try apply fine_Ret. cbn [length] in E.
      apply fine_bind; [apply R; cbn [num]; lia|]. intros; apply fine_Ret.
    + apply fine_bind; [apply A; lia|]. intros [x r] E. apply atom_len in E. cbn [fst snd]. apply P; lia.
  - intros l acc ts LR B. rewrite p_more_S. destruct ts as [|t r]; [apply fine_Ret|]. destruct (left_op l t) as [op|]; [|apply fine_Ret].
    cbn [length] in B. apply fine_bind; [apply R; destruct l; cbn [num tighter]; lia|]. intros [x r2] E. apply rule_len in E. cbn [fst snd]. apply M; [auto|lia].
  - intros acc ts B. rewrite p_post_S. destruct ts as [|[k v] r]; [apply fine_Ret|]. cbn [length] in B. destruct k; try apply fine_Ret.
    + apply P; lia.
    + destruct (c =? 46)%N.
      * destruct r as [|[k s] r]; [apply fine_syntax|]. destruct k; try apply fine_syntax. cbn [length] in B. apply P; lia.
      * destruct (c =? 91)%N; [|apply fine_Ret]. apply fine_bind; [apply Is; lia|]. intros [l r2] E. apply items_len in E. cbn [fst snd].
        apply fine_bind; [apply fine_expect|]. intros [y r3] E2. apply expect_len in E2. cbn [fst snd]. apply P; lia.
  - intros ts B. rewrite p_atom_S.
    assert (fine (match literal ts with Some (v, r) => Ret (XLit v, r) | None => Raise SyntaxErr end)) as D by (destruct (literal ts) as [[? ?]|]; discriminate).
    destruct ts as [|[k v] r]; [auto|]. cbn [length] in B. pose proof (skip_len r). destruct k; auto; try apply fine_Ret.
    + destruct (at_kind OPEN_PAREN r) as [r2|] eqn:E1; [|apply fine_Ret]. apply at_len in E1. destruct (at_kind CLOSE_PAREN r2); [apply fine_Ret|].
      apply fine_bind; [apply L; lia|]. intros; apply fine_expect.
    + destruct (at_kind CLOSE_PAREN r); [apply fine_Ret|]. apply fine_bind; [apply L; lia|]. intros; apply fine_expect.
    + destruct (c =? 96)%N; [apply fine_bind; [apply L; lia|]; intros; apply fine_expect|].
      destruct (c =? 91)%N.
      * destruct (at_kind square_close (skip_nl r)); [apply fine_Ret|]. apply fine_bind; [apply L; lia|]. intros; apply fine_expect.
      * destruct (c =? 123)%N; [|apply fine_syntax].
        destruct (at_kind curly_close (skip_nl r)); [apply fine_Ret|]. apply fine_bind; [apply T; lia|]. intros; apply fine_expect.
  - intros nl ts B. rewrite p_list_S. apply fine_bind; [apply R; cbn [num]; lia|]. intros [x r] E. apply rule_len in E. cbn [fst snd].
    destruct (at_kind comma r) as [r2|] eqn:E2; [|apply fine_Ret]. apply at_len in E2. pose proof (skip_len r2).
    apply fine_bind; [apply L; destruct nl; lia|]. intros; apply fine_Ret.
  - intros ts B. rewrite p_table_S. destruct (string_literal ts) as [[k r]|] eqn:E0; [|apply fine_syntax]. apply string_len in E0.
    destruct (at_kind colon r) as [r2|] eqn:E1; [|apply fine_syntax]. apply at_len in E1.
    apply fine_bind; [apply R; cbn [num]; lia|]. intros [x r3] E. apply rule_len in E. cbn [fst snd].
    destruct (at_kind comma r3) as [r4|] eqn:E2; [|apply fine_Ret]. apply at_len in E2. pose proof (skip_len r4).
    apply fine_bind; [apply T; lia|]. intros; apply fine_Ret.
  - intros ts B. rewrite p_items_S. apply fine_bind; [apply I; lia|]. intros [x r] E. apply item_len in E. cbn [fst snd].
    destruct (at_kind comma r) as [r2|] eqn:E2; [|apply fine_Ret]. apply at_len in E2. apply fine_bind; [apply Is; lia|]. intros; apply fine_Ret.
  - intros ts B. rewrite p_item_S. destruct (at_kind colon ts) as [r|] eqn:E; [apply at_len in E; apply Sl; lia|].
    apply fine_bind; [apply R; cbn [num]; lia|]. intros [x r] E1. apply rule_len in E1. cbn [fst snd].
    destruct (at_kind colon r) as [r2|] eqn:E2; [|apply fine_Ret]. apply at_len in E2. apply Sl; lia.
  - intros a ts B. rewrite p_slice_S. destruct (at_kind colon ts) as [r|] eqn:E.
    + apply at_len in E. apply fine_bind; [apply R; cbn [num]; lia|]. intros; apply fine_Ret.
    + destruct (at_kind comma ts); [apply fine_Ret|]. destruct (at_kind square_close ts); [apply fine_Ret|].
      apply fine_bind; [apply R; cbn [num]; lia|]. intros [x r] E1. apply rule_len in E1. cbn [fst snd].
      destruct (at_kind colon r) as [r2|] eqn:E2; [|apply fine_Ret]. apply at_len in E2.
      apply fine_bind; [apply R; cbn [num]; lia|]. intros; apply fine_Ret.
Qed.

(** The only exception is SyntaxError. *)
Definition plain {A} (x : outcome A) : Prop := forall e, x = Raise e -> e = SyntaxErr \/ e = OutOfFuel.
Lemma plain_bind {A B} (a : outcome A) (k : A -> outcome B) : plain a -> (forall x, plain (k x)) -> plain (obind a k).
Proof. intros H K e. destruct a as [x|e']; cbn [obind]; [apply K|]. intros [= ->]. now apply H. Qed.
Lemma plain_Ret {A} (x : A) : plain (Ret x). Proof. intros e; discriminate. Qed.
Lemma plain_syntax {A} : plain (@Raise A SyntaxErr). Proof. intros e [= <-]. now left. Qed.
Lemma plain_fuel {A} : plain (@Raise A OutOfFuel). Proof. intros e [= <-]. now right. Qed.
Lemma plain_expect {A} k (x : A) ts : plain (expect k x ts).
Proof. destruct ts as [|[k' v] r]; cbn [expect]; [apply plain_syntax|]. destruct (kind_is k k'); [apply plain_Ret|apply plain_syntax]. Qed.
Lemma plain_comp ts : plain (comp_op ts).
Proof.
  destruct ts as [|[k v] r]; [apply plain_Ret|]. destruct k; cbn [comp_op]; try apply plain_Ret.
  destruct r as [|[k2 v2] r]; [apply plain_syntax|]. destruct k2; try apply plain_Ret; apply plain_syntax.
Qed.
Definition plain_at (f : nat) : Prop :=
  (forall l ts, plain (p_rule f l ts)) /\ (forall l acc ts, plain (p_more f l acc ts)) /\ (forall acc ts, plain (p_post f acc ts)) /\
  (forall ts, plain (p_atom f ts)) /\ (forall nl ts, plain (p_list f nl ts)) /\ (forall ts, plain (p_table f ts)) /\
  (forall ts, plain (p_items f ts)) /\ (forall ts, plain (p_item f ts)) /\ (forall a ts, plain (p_slice f a ts)).
Ltac plain_step :=
  match goal with
  | |- plain (obind _ _) => apply plain_bind; [|intros ?]
  | |- plain (Ret _) => apply plain_Ret
  | |- plain (Raise SyntaxErr) => apply plain_syntax
  | |- plain (expect _ _ _) => apply plain_expect
  | |- plain (comp_op _) => apply plain_comp
  | H : _ |- _ => apply H
  | |- plain (match ?x with _ => _ end) => destruct x
  end.
Lemma plain_all f : plain_at f.
Proof.
  induction f as [|f (R & M & P & A & L & T & Is & I & S0)].
  - repeat split; intros; apply plain_fuel.
  - repeat apply conj; intros.
    + rewrite p_rule_S. repeat plain_step.
    + rewrite p_more_S. repeat plain_step.
    + rewrite p_post_S. repeat plain_step.
    + rewrite p_atom_S. repeat plain_step.
    + rewrite p_list_S. repeat plain_step.
    + rewrite p_table_S. repeat plain_step.
    + rewrite p_items_S. repeat plain_step.
    + rewrite p_item_S. repeat plain_step.
    + rewrite p_slice_S. repeat plain_step.
Qed.

Lemma expression_ends ts : (exists c, expression ts = Ret c) \/ expression ts = Raise SyntaxErr.
Proof.
  unfold expression. pose proof (proj1 (ends_all (enough ts)) OrTest ts) as F. pose proof (proj1 (plain_all (enough ts)) OrTest ts) as P.
  destruct (p_rule (enough ts) OrTest ts) as [[c r]|e]; cbn [obind fst snd].
  - destruct r; [left; eauto|now right].
  - right. destruct (P e eq_refl) as [-> | ->]; [reflexivity|]. exfalso. apply F; [|reflexivity]. unfold enough. cbn [num]. lia.
Qed.
