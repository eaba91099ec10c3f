(** What the tokens say is found. *)
From Coq Require Import String Ascii List NArith PeanoNat Bool Lia.
From Verif Require Import PyBase LexModel DrelModel PhraseModel PhraseSpec PhraseProofs PhraseProofs2 PhraseProofs3.
Import ListNotations.
Open Scope nat_scope.

Definition then_ (f : nat) (l : rule) (c : cx) (rest : list tok) (r : parsed cx) : Prop :=
  if left_rule l then p_more f l c rest = r
  else match l with Primary => p_post f c rest = r | _ => stops (num l) rest /\ r = Ret (c, rest) end.
Lemma then_stop l c rest : stops (num l) rest -> then_ 1 l c rest (Ret (c, rest)).
Proof.
  intros H. destruct l; unfold then_; cbn [left_rule]; try (split; [exact H|reflexivity]); try (apply stops_more; exact H).
  apply stops_post. exact H.
Qed.

Definition found (n : nat) (c : cx) (ts : list tok) : Prop :=
  opens n ts /\
  forall l rest f r f', num l = n -> stops (S n) rest -> then_ f l c rest r -> r <> Raise OutOfFuel ->
    1 <= f -> f + 14 * length ts + (9 - n) <= f' -> p_rule f' l (ts ++ rest) = r.
Lemma found_stop n c ts l rest f' : found n c ts -> num l = n -> stops n rest -> 14 * length ts + (10 - n) <= f' ->
  p_rule f' l (ts ++ rest) = Ret (c, rest).
Proof.
  intros (_ & F) E St L. assert (n <= 8) by (subst; destruct l; cbn; lia). apply (F l rest 1); [auto| | |discriminate|lia|lia].
  - apply (stops_le n); [lia|auto].
  - apply then_stop. now rewrite E.
Qed.
Lemma stops_67 rest : stops 7 rest -> stops 6 rest.
Proof.
  destruct rest as [|[k v] r]; [auto|]. unfold stops, stops_k. cbn [fst]. destruct k; cbn [goes_on]; auto.
  repeat (match goal with |- context [if ?x then _ else _] => destruct x end; auto).
Qed.
Lemma stops_23 rest : stops 3 rest -> stops 2 rest.
Proof.
  destruct rest as [|[k v] r]; [auto|]. unfold stops, stops_k. cbn [fst]. destruct k; cbn [goes_on]; auto.
  repeat (match goal with |- context [if ?x then _ else _] => destruct x end; auto).
Qed.

Lemma found_closer n c ts : n < 8 -> found (S n) c ts -> found n c ts.
Proof.
  intros L F. pose proof F as (O & _). split; [exact (opens_le n (S n) ts (Nat.le_succ_diag_r n) O)|].
  intros l rest f r f' E St T NF Lf Le. destruct f' as [|g]; [lia|].
  assert (forall l2, num l2 = S n -> p_rule g l2 (ts ++ rest) = Ret (c, rest)) as G.
  { intros l2 E2. apply (found_stop (S n)); auto. lia. }
  rewrite p_rule_S. destruct l; cbn [num] in E; subst n; cbn [then_ left_rule num] in T.
  - rewrite (G AndTest eq_refl). cbn [obind fst snd]. apply (below_eq _ _ _ (more_mono f g _ _ _ ltac:(lia)) T NF).
  - rewrite (G NotTest eq_refl). cbn [obind fst snd]. apply (below_eq _ _ _ (more_mono f g _ _ _ ltac:(lia)) T NF).
  - destruct T as (_ & ->). rewrite <- (G Comparison eq_refl).
    apply (opens_app _ _ rest) in O. destruct (ts ++ rest) as [|[k v] q]; [destruct O|]. destruct k; auto. discriminate O.
  - destruct T as (T & ->). rewrite (G AExpression eq_refl). cbn [obind fst snd]. rewrite (stops_comp _ T). reflexivity.
  - rewrite (G MExpression eq_refl). cbn [obind fst snd]. apply (below_eq _ _ _ (more_mono f g _ _ _ ltac:(lia)) T NF).
  - rewrite (G UExpression eq_refl). cbn [obind fst snd]. apply (below_eq _ _ _ (more_mono f g _ _ _ ltac:(lia)) T NF).
  - destruct T as (_ & ->). rewrite <- (G Power eq_refl).
    apply (opens_app _ _ rest) in O. destruct (ts ++ rest) as [|[k v] q]; [destruct O|]. destruct k; auto.
    destruct (existsb (N.eqb c0) (u "+-")) eqn:X; [|auto]. exfalso. apply in_char in X. cbn in X. destruct X as [<-|[<-|[]]]; discriminate O.
  - destruct T as (T & ->). rewrite (G Primary eq_refl). cbn [obind fst snd]. exact (stops_power rest (Ret (c, rest)) _ _ T).
  - lia.
Qed.

Lemma left_op_of n m op v s : operator n n m [(op, v)] s -> n <> 3 -> n <> 7 -> forall l, num l = n ->
  left_op l (op, v) = Some s /\ left_rule l = true /\ num (tighter l) = S n /\ m = S n /\ forall r, stops (S n) ((op, v) :: r).
Proof.
  intros O N3 N7 l E.
  inversion O as [k0 v0 H0|k0 v0 H0|k0 v0 H0| |k0 v0 H0|k0 v0 H0|]; subst; try lia;
    (destruct l; cbn [num] in *; try discriminate; try lia); cbn [In] in H0;
    repeat match goal with HH : _ \/ _ |- _ => destruct HH as [HH|HH] | HH : False |- _ => destruct HH end; subst;
    (split; [reflexivity|split; [reflexivity|split; [reflexivity|split; [reflexivity|intros r; reflexivity]]]]).
Qed.

Lemma found_op n l0 r0 op s a b ta tb : operator n l0 r0 op s -> found l0 a ta -> found r0 b tb -> found n (XBin s a b) (ta ++ op ++ tb).
Proof.
  intros Op A B. split.
  { apply opens_app. apply (opens_le n l0); [exact (proj1 (operator_levels _ _ _ _ _ Op))|exact (proj1 A)]. }
  intros l rest f r f' E St T NF Lf Le. rewrite !app_length in Le. rewrite <- !app_assoc.
  assert ((l0 = n /\ exists k v, op = [(k, v)] /\ n <> 3 /\ n <> 7) \/ (n = 3 /\ l0 = 4 /\ r0 = 4 /\ forall q, comp_op (op ++ q) = Ret (Some (s, q)) /\ stops 4 (op ++ q))
          \/ (n = 7 /\ l0 = 8 /\ r0 = 6 /\ s = u "**" /\ exists v, op = [(POWER, v)])) as C.
  { destruct Op.
    - left; (split; [reflexivity|]); do 2 eexists; (split; [reflexivity|]); split; lia.
    - left; (split; [reflexivity|]); do 2 eexists; (split; [reflexivity|]); split; lia.
    - right; left. do 3 (split; [reflexivity|]). cbn [In] in H.
      repeat match goal with HH : _ \/ _ |- _ => destruct HH as [HH|HH] | HH : False |- _ => destruct HH end; subst; intros q; split; reflexivity.
    - right; left. do 3 (split; [reflexivity|]). intros q; split; reflexivity.
    - left; (split; [reflexivity|]); do 2 eexists; (split; [reflexivity|]); split; lia.
    - left; (split; [reflexivity|]); do 2 eexists; (split; [reflexivity|]); split; lia.
    - right; right. eauto 9. }
  destruct C as [(-> & k & v & -> & N3 & N7)|[(-> & -> & -> & C)|(-> & -> & -> & -> & v & ->)]].
  - destruct (left_op_of _ _ _ _ _ Op N3 N7 l E) as (LO & LR & NT & -> & ST). cbn [app length] in *.
    assert (n <= 8) by (subst n; destruct l; cbn; lia).
    destruct A as (_ & A). apply (A l _ (f + 14 * S (length tb))); [auto|apply ST| |auto|lia|lia].
    unfold then_. rewrite LR. replace (f + 14 * S (length tb)) with (S (f + 13 + 14 * length tb)) by lia. rewrite p_more_S, LO.
    rewrite (found_stop _ _ _ (tighter l) rest (f + 13 + 14 * length tb) B NT St) by lia. cbn [obind fst snd].
    unfold then_ in T. rewrite LR in T. eapply below_eq; [apply (more_mono f); lia|exact T|exact NF].
  - destruct l; try discriminate E. destruct T as (T & ->). destruct f' as [|g]; [lia|]. rewrite p_rule_S.
    destruct (C (tb ++ rest)) as (C1 & C2). rewrite (found_stop 4 _ _ AExpression _ g A eq_refl C2) by lia. cbn [obind fst snd]. rewrite C1.
    cbn [obind]. rewrite (found_stop 4 _ _ AExpression _ g B eq_refl St) by lia. reflexivity.
  - destruct l; try discriminate E. destruct T as (T & ->). destruct f' as [|g]; [lia|]. cbn [app length] in *. rewrite p_rule_S.
    rewrite (found_stop 8 _ _ Primary ((POWER, v) :: tb ++ rest) g A eq_refl eq_refl) by lia. cbn [obind fst snd].
    rewrite (found_stop 6 _ _ UExpression _ g B eq_refl (stops_67 _ T)) by lia. reflexivity.
Qed.
Lemma found_not v a ts : found 2 a ts -> found 2 (XNot a) ((NOT, v) :: ts).
Proof.
  intros A. split; [reflexivity|]. intros l rest f r f' E St T NF Lf Le. destruct l; try discriminate E. destruct T as (T & ->).
  destruct f' as [|g]; [lia|]. rewrite p_rule_S. cbn [app length] in *. rewrite (found_stop 2 _ _ NotTest _ g A eq_refl T) by lia. reflexivity.
Qed.
Lemma found_sign k v a ts : In k [LIT 43; LIT 45] -> found 6 a ts -> found 6 (XSign v a) ((k, v) :: ts).
Proof.
  intros K A. split; [cbn [In] in K; destruct K as [<-|[<-|[]]]; reflexivity|].
  intros l rest f r f' E St T NF Lf Le. destruct l; try discriminate E. destruct T as (T & ->).
  destruct f' as [|g]; [lia|]. rewrite p_rule_S. cbn [app length] in *. cbn [In] in K.
  destruct K as [<-|[<-|[]]]; (match goal with |- (if ?x then _ else _) = _ => change x with true end); cbv iota;
    rewrite (found_stop 6 _ _ UExpression _ g A eq_refl T) by lia; reflexivity.
Qed.

(** A single thing. *)
Lemma found_atom c ts : opens 8 ts -> (forall rest g, stops 9 rest -> 14 * length ts <= g -> p_atom g (ts ++ rest) = Ret (c, rest)) -> found 8 c ts.
Proof.
  intros O H. split; [exact O|]. intros l rest f r f' E St T NF Lf Le. destruct l; try discriminate E. cbn [then_ left_rule] in T.
  destruct f' as [|g]; [lia|]. rewrite p_rule_S, H by (auto; lia). cbn [obind fst snd].
  apply (below_eq _ _ _ (post_mono f g _ _ ltac:(lia)) T NF).
Qed.
(** Something behind a single thing. *)
Lemma found_post p c tp ts : found 8 p tp -> (forall rest, stops 9 (ts ++ rest)) -> 1 <= length ts ->
  (forall rest f g r, stops 9 rest -> p_post f c rest = r -> r <> Raise OutOfFuel -> f + 14 * length ts <= g -> p_post g p (ts ++ rest) = r) ->
  found 8 c (tp ++ ts).
Proof.
  intros (O & P) S9 L1 H. split; [now apply opens_app|]. intros l rest f r f' E St T NF Lf Le. destruct l; try discriminate E.
  rewrite app_length in Le. rewrite <- app_assoc. apply (P Primary _ (f + 14 * length ts)); [auto|apply S9| |auto|lia|lia].
  cbn [then_ left_rule] in *. apply (H rest f _ r); auto.
Qed.

Definition found_all (nl : bool) (l : list cx) (ts : list tok) : Prop := opens 0 ts /\
  forall rest g, stops 0 rest -> at_kind comma rest = None -> 14 * length ts + 11 <= g -> p_list g nl (ts ++ rest) = Ret (l, rest).
Definition found_entries (l : list (str * cx)) (ts : list tok) : Prop := opens 0 ts /\
  forall rest g, stops 0 rest -> at_kind comma rest = None -> 14 * length ts + 11 <= g -> p_table g (ts ++ rest) = Ret (l, rest).
Definition ends_item (rest : list tok) : Prop := exists v r, rest = (comma, v) :: r \/ rest = (square_close, v) :: r.
Definition found_item (i : citem) (ts : list tok) : Prop :=
  forall rest g, ends_item rest -> 14 * length ts + 12 <= g -> p_item g (ts ++ rest) = Ret (i, rest).
Definition found_opt (o : option cx) (ts : list tok) : Prop :=
  match o with None => ts = [] | Some e => found 0 e ts end.
Definition found_items (l : list citem) (ts : list tok) : Prop :=
  forall v r g, 14 * length ts + 13 <= g -> p_items g (ts ++ (square_close, v) :: r) = Ret (l, (square_close, v) :: r).

Lemma ends_stops rest : ends_item rest -> stops 0 rest /\ at_kind colon rest = None.
Proof. intros (v & r & [-> | ->]); split; reflexivity. Qed.

Lemma at_same k v (r : list tok) : kind_is k k = true -> at_kind k ((k, v) :: r) = Some r.
Proof. intros E. cbn [at_kind]. now rewrite E. Qed.

Lemma found_single e te : found 0 e te -> found_item (IExpr e) te.
Proof.
  intros F rest g (St & C)%ends_stops L. destruct g as [|g]; [lia|]. rewrite p_item_S.
  rewrite (opens_not_at 0 _ colon (opens_app 0 te rest (proj1 F)) eq_refl).
  rewrite (found_stop 0 _ _ OrTest _ g F eq_refl St) by lia. cbn [obind fst snd]. rewrite C. reflexivity.
Qed.
Lemma found_slice a (c : option cx) b tb rest g : found_opt b tb -> ends_item rest ->
  match c with
  | None => 14 * length tb + 12 <= g -> p_slice g a (tb ++ rest) = Ret (IRange a b None, rest)
  | Some e => forall w tc, found 0 e tc -> 14 * (length tb + length tc) + 12 <= g -> p_slice g a (tb ++ (LIT 58, w) :: tc ++ rest) = Ret (IRange a b (Some e), rest)
  end.
Proof.
  intros B R. destruct (ends_stops _ R) as (St & C).
  destruct c as [e|].
  - intros w tc F L. destruct g as [|g]; [lia|]. rewrite p_slice_S. destruct b as [b|]; cbn [found_opt] in B.
    + pose proof (opens_app 0 tb ((LIT 58, w) :: tc ++ rest) (proj1 B)) as O.
      rewrite (opens_not_at 0 _ colon O eq_refl), (opens_not_at 0 _ comma O eq_refl), (opens_not_at 0 _ square_close O eq_refl).
      rewrite (found_stop 0 _ _ OrTest ((LIT 58, w) :: tc ++ rest) g B eq_refl eq_refl) by lia. cbn [obind fst snd].
      rewrite at_same by reflexivity. rewrite (found_stop 0 _ _ OrTest _ g F eq_refl St) by lia. reflexivity.
    + subst tb. cbn [app length] in *. rewrite at_same by reflexivity. rewrite (found_stop 0 _ _ OrTest _ g F eq_refl St) by lia. reflexivity.
  - intros L. destruct g as [|g]; [lia|]. rewrite p_slice_S. destruct b as [b|]; cbn [found_opt] in B.
    + pose proof (opens_app 0 tb rest (proj1 B)) as O.
      rewrite (opens_not_at 0 _ colon O eq_refl), (opens_not_at 0 _ comma O eq_refl), (opens_not_at 0 _ square_close O eq_refl).
      rewrite (found_stop 0 _ _ OrTest _ g B eq_refl St) by lia. cbn [obind fst snd]. rewrite C. reflexivity.
    + subst tb. cbn [app]. rewrite C. destruct R as (v & r & [-> | ->]); reflexivity.
Qed.
Lemma found_range a b c v ta tb tc : found_opt a ta -> found_opt b tb ->
  match c with None => tc = [] | Some e => exists w t, tc = (LIT 58, w) :: t /\ found 0 e t end ->
  found_item (IRange a b c) (ta ++ (LIT 58, v) :: tb ++ tc).
Proof.
  intros A B Cc rest g R L. rewrite app_length in L. cbn [length] in L. rewrite app_length in L.
  assert (forall g, 14 * (length tb + length tc) + 12 <= g -> p_slice g a (tb ++ tc ++ rest) = Ret (IRange a b c, rest)) as Sl.
  { intros g' L'. destruct c as [e|].
    - destruct Cc as (w & t & -> & F). apply (found_slice a (Some e) b tb rest g' B R); [exact F|]. cbn [length] in L'. lia.
    - subst tc. apply (found_slice a None b tb rest g' B R). lia. }
  destruct g as [|g]; [lia|]. rewrite p_item_S. rewrite <- app_assoc. cbn [app]. rewrite <- app_assoc.
  destruct a as [a|]; cbn [found_opt] in A.
  - rewrite (opens_not_at 0 _ colon (opens_app 0 ta _ (proj1 A)) eq_refl).
    rewrite (found_stop 0 _ _ OrTest ((LIT 58, v) :: tb ++ tc ++ rest) g A eq_refl eq_refl) by lia. cbn [obind fst snd].
    rewrite at_same by reflexivity. apply Sl. lia.
  - subst ta. cbn [app]. rewrite at_same by reflexivity. apply Sl. lia.
Qed.
Lemma found_item1 i ti : found_item i ti -> found_items [i] ti.
Proof.
  intros F v r g L. destruct g as [|g]; [lia|]. rewrite p_items_S, F; [|exists v, r; now right|lia]. reflexivity.
Qed.
Lemma found_item2 i l v ti ts : found_item i ti -> found_items l ts -> found_items (i :: l) (ti ++ (LIT 44, v) :: ts).
Proof.
  intros F Fs w r g L. rewrite app_length in L. cbn [length] in L. destruct g as [|g]; [lia|].
  rewrite <- app_assoc. rewrite p_items_S, F; [|eexists; eexists; left; reflexivity|lia]. cbn [obind fst snd app].
  rewrite at_same by reflexivity. rewrite Fs by lia. reflexivity.
Qed.
Lemma found_bracketed p l c v w ts te : found 8 p ts -> found_items l te -> bracketed p l = c ->
  found 8 c (ts ++ (LIT 91, v) :: te ++ [(LIT 93, w)]).
Proof.
  intros P I <-. apply (found_post p); [exact P|reflexivity|cbn; lia|]. intros rest f g r St T NF L.
  cbn [length] in L. rewrite app_length in L. cbn [length] in L. destruct g as [|g]; [lia|]. cbn [app]. rewrite <- app_assoc. cbn [app].
  rewrite p_post_S. cbn [N.eqb Pos.eqb]. rewrite I by lia. cbn [obind fst snd expect kind_is square_close N.eqb Pos.eqb].
  apply (below_eq _ _ _ (post_mono f g _ _ ltac:(lia)) T NF).
Qed.
