(** How each form of expression is read, at the level where it may stand. *)
From Coq Require Import String Ascii List NArith PeanoNat Bool Lia.
From Verif Require Import PyBase PyFacts DrelModel DrelSpec DrelProofs DrelProofs2.
Import ListNotations.
Open Scope string_scope.
Open Scope list_scope.
Open Scope nat_scope.

(** The level at which a token joins what is before it to what follows. *)
Definition bind_level (t : tok) : option nat :=
  match t with
  | TName w =>
      if str_eqb w (u "or") then Some 0 else if str_eqb w (u "and") then Some 1
      else if str_eqb w (u "in") || str_eqb w (u "not") then Some 3 else None
  | TOp o =>
      if existsb (str_eqb o) [u "<"; u ">"; u "<="; u ">="; u "=="; u "!="] then Some 3
      else if str_eqb o (u "|") then Some 4 else if str_eqb o (u "&") then Some 5
      else if str_eqb o (u "+") || str_eqb o (u "-") then Some 6
      else if str_eqb o (u "*") || str_eqb o (u "/") then Some 7
      else if str_eqb o (u "**") then Some 9
      else if str_eqb o (u ".") || str_eqb o (u "(") || str_eqb o (u "[") then Some 10 else None
  | _ => None
  end.
Definition follow (k : nat) (ts : list tok) : Prop :=
  match ts with [] => True | t :: _ => match bind_level t with Some j => j < k | None => True end end.
Lemma follow_le j k ts : j <= k -> follow j ts -> follow k ts.
Proof. destruct ts as [|t r]; cbn [follow]; [auto|]. destruct (bind_level t); [lia|auto]. Qed.

Lemma reads1 g ts r : (exists n, step (rd n) g ts = Some r) -> reads g ts r.
Proof. intros [n H]. exists (S n). exact H. Qed.
Lemma reads_two a ta ra b tb rb : reads a ta ra -> reads b tb rb -> exists n, rd n a ta = Some ra /\ rd n b tb = Some rb.
Proof.
  intros [n A] [m B]. exists (n + m). split; [apply (rd_le n)|apply (rd_le m)]; try lia; assumption.
Qed.

Lemma binop_level k t op : binop k t = Some op -> bind_level t = Some k.
Proof.
  assert (E1 : forall s, is_kw s t = true -> t = TName (u s)).
  { intros s. destruct t; cbn [is_kw]; try discriminate. destruct (str_eqb_spec s0 (u s)); [congruence|discriminate]. }
  assert (E2 : forall s, is_op s t = true -> t = TOp (u s)).
  { intros s. unfold is_op. destruct t; cbn [is_ops]; try discriminate. destruct (str_eqb_spec s0 (u s)); [congruence|discriminate]. }
  unfold binop. destruct k as [|[|[|[|[|[|[|[|k]]]]]]]]; try discriminate;
  repeat match goal with |- (if ?b then _ else _) = _ -> _ => destruct b eqn:? end; try discriminate; intros _;
  match goal with H : is_kw _ t = true |- _ => rewrite (E1 _ H) | H : is_op _ t = true |- _ => rewrite (E2 _ H) end; reflexivity.
Qed.
Lemma cmpop_level t r q : cmpop (t :: r) = Some q -> bind_level t = Some 3.
Proof.
  unfold cmpop. destruct t as [w|w|w|w|]; try discriminate; cbn [bind_level].
  - destruct (str_eqb_spec w (u "in")) as [->|N]; [reflexivity|]. destruct (str_eqb_spec w (u "not")) as [->|N2]; [reflexivity|discriminate].
  - destruct (existsb _ _); [reflexivity|discriminate].
Qed.
Lemma is_op_eq s t : is_op s t = true -> t = TOp (u s).
Proof. unfold is_op. destruct t; cbn [is_ops]; try discriminate. destruct (str_eqb_spec s0 (u s)); [congruence|discriminate]. Qed.

(** Nothing more at this level. *)
Lemma GL_stop k t ts : k <= 10 -> follow k ts -> reads (GL k t) ts ([t], ts).
Proof.
  intros K F.
  assert (Bin : match ts with
             | o :: r => match binop k o with
                         | Some op => None
                         | None => Some ([t], ts)
                         end
             | [] => Some ([t], ts)
             end = Some ([t], ts)).
  { destruct ts as [|o r]; [reflexivity|]. destruct (binop k o) eqn:B; [|reflexivity]. apply binop_level in B. cbn [follow] in F. rewrite B in F. lia. }
  assert (Bin2 : k <> 3 -> k <> 9 -> k <> 10 -> step (rd 1) (GL k t) ts = Some ([t], ts)).
  { intros N1 N2 N3. unfold step. destruct k as [|[|[|[|[|[|[|[|[|[|[|k]]]]]]]]]]]; try congruence; try lia;
    (destruct ts as [|o r]; [reflexivity|destruct (binop _ o); [discriminate Bin|reflexivity]]). }
  destruct (Nat.eq_dec k 3) as [->|N3]; [|destruct (Nat.eq_dec k 9) as [->|N9]; [|destruct (Nat.eq_dec k 10) as [->|N10]]].
  - exists 2. cbn [rd step]. destruct (cmpop ts) as [[op r]|] eqn:C; [|reflexivity].
    destruct ts as [|o q]; [discriminate|]. apply cmpop_level in C. cbn [follow] in F. rewrite C in F. lia.
  - exists 1. cbn [rd step]. destruct ts as [|o q]; [reflexivity|]. destruct (is_op "**" o) eqn:E; [|reflexivity].
    apply is_op_eq in E. subst o. cbn in F. lia.
  - exists 1. cbn [rd step]. destruct ts as [|o q]; [reflexivity|].
    destruct (is_op "." o) eqn:E1; [apply is_op_eq in E1; subst o; cbn in F; lia|].
    destruct (is_op "(" o) eqn:E2; [apply is_op_eq in E2; subst o; cbn in F; lia|].
    destruct (is_op "[" o) eqn:E3; [apply is_op_eq in E3; subst o; cbn in F; lia|reflexivity].
  - exists 2. exact (Bin2 N3 N9 N10).
Qed.

(** [ts] is the expression [t] wherever level [k] is read. *)
Definition Rd (k : nat) (ts : list tok) (t : py) : Prop :=
  forall more r, follow (S k) more -> reads (GL k t) more r -> reads (GE k) (ts ++ more) r.
Definition starter (t : tok) : bool :=
  match t with
  | TName _ | TNum _ | TStr _ => true
  | TOp o => existsb (str_eqb o) [u "("; u "["; u "{"; u "-"; u "+"]
  | TBad => false
  end.
Definition hdok (k : nat) (ts : list tok) : Prop :=
  match ts with
  | [] => False
  | t :: _ => starter t = true /\ (3 <= k -> is_kw "not" t = false) /\ (9 <= k -> is_op "-" t || is_op "+" t = false)
  end.
Lemma hdok_le j k ts : j <= k -> hdok k ts -> hdok j ts.
Proof. destruct ts; cbn [hdok]; [auto|]. intros L (A & B & C). repeat split; [exact A| |]; intros; [apply B|apply C]; lia. Qed.
Lemma hdok_app k a b : hdok k a -> hdok k (a ++ b).
Proof. destruct a; [intros []|auto]. Qed.

Lemma Rd_reads k ts t more : k <= 10 -> Rd k ts t -> follow k more -> reads (GE k) (ts ++ more) ([t], more).
Proof. intros K R F. apply R; [apply (follow_le k); [lia|exact F]|apply GL_stop; assumption]. Qed.

Lemma step_plain k ts r : k <= 9 -> hdok (S k) ts -> forall more,
  (exists n, one (rd n (GE (S k)) (ts ++ more)) (fun t q => rd n (GL k t) q) = Some r) -> reads (GE k) (ts ++ more) r.
Proof.
  intros K H more [n E]. exists (S n). destruct ts as [|t q]; [destruct H|]. destruct H as (A & B & C).
  cbn [rd app]. cbn [app] in E.
  destruct k as [|[|[|[|[|[|[|[|[|[|k]]]]]]]]]]; try lia; cbn [step]; try exact E.
  - destruct t; try exact E. assert (X : is_kw "not" (TName s) = false) by (apply B; lia). unfold is_kw in X. rewrite X. exact E.
  - destruct t; try exact E. assert (X : is_op "-" (TOp s) || is_op "+" (TOp s) = false) by (apply C; lia). unfold is_op, is_ops in X. rewrite X. exact E.
Qed.
Lemma Rd_down k ts t : k <= 9 -> hdok (S k) ts -> Rd (S k) ts t -> Rd k ts t.
Proof.
  intros K H R more r F G. apply (step_plain k ts r K H).
  assert (A : reads (GE (S k)) (ts ++ more) ([t], more)).
  { apply Rd_reads; [lia|exact R|exact F]. }
  destruct (reads_two _ _ _ _ _ _ A G) as (n & E1 & E2). exists n. rewrite E1. exact E2.
Qed.

(** Atoms *)
Lemma Rd_name w : keyword w = false -> Rd 10 [TName w] (PName w).
Proof. intros K more r _ [n G]. exists (S n). cbn [rd app step]. rewrite K. exact G. Qed.
Lemma Rd_num w : py_number w = true -> Rd 10 [TNum w] (PNum w).
Proof. intros K more r _ [n G]. exists (S n). cbn [rd app step]. rewrite K. exact G. Qed.
Lemma Rd_str w : Rd 10 [TStr w] (PStr w).
Proof. intros more r _ [n G]. exists (S n). exact G. Qed.

(** Expressions between commas, up to a closing bracket. *)
Definition Seq (js : list tok) (l : list py) : Prop :=
  forall close acc more, close = u ")" \/ close = u "]" -> reads (GSeq close acc) (js ++ TOp close :: more) (acc ++ l, more).
Lemma Seq_nil : Seq [] [].
Proof.
  intros close acc more C. exists 1. cbn [rd app step is_ops].
  destruct C as [->| ->]; rewrite app_nil_r; reflexivity.
Qed.
Lemma starter_close t close : close = u ")" \/ close = u "]" -> starter t = true -> is_ops close t = false.
Proof.
  intros C S. destruct t as [w|w|w|w|]; try reflexivity. cbn [is_ops]. destruct (str_eqb_spec w close) as [->|]; [|reflexivity].
  destruct C as [->| ->]; discriminate S.
Qed.
Lemma Seq_one ts t : hdok 0 ts -> Rd 0 ts t -> Seq ts [t].
Proof.
  intros H R close acc more C.
  assert (A : reads (GE 0) (ts ++ TOp close :: more) ([t], TOp close :: more)).
  { apply Rd_reads; [lia|exact R|]. destruct C as [->| ->]; exact I. }
  destruct A as [n A]. exists (S n). destruct ts as [|t0 q]; [destruct H|]. destruct H as (S0 & _).
  cbn [app] in *. cbn [rd step]. rewrite (starter_close _ _ C S0), A. cbn [one].
  assert (is_op "," (TOp close) = false) as -> by (destruct C as [->| ->]; reflexivity).
  assert (is_ops close (TOp close) = true) as -> by (destruct C as [->| ->]; reflexivity). reflexivity.
Qed.
Lemma Seq_cons ts t js l : hdok 0 ts -> Rd 0 ts t -> Seq js l -> Seq (ts ++ TOp (u ",") :: js) (t :: l).
Proof.
  intros H R Q close acc more C.
  assert (A : reads (GE 0) (ts ++ TOp (u ",") :: js ++ TOp close :: more) ([t], TOp (u ",") :: js ++ TOp close :: more)).
  { apply Rd_reads; [lia|exact R|exact I]. }
  destruct (reads_two _ _ _ _ _ _ A (Q close (acc ++ [t]) more C)) as (n & E1 & E2). exists (S n).
  rewrite <- app_assoc. cbn [app]. destruct ts as [|t0 q]; [destruct H|]. destruct H as (S0 & _).
  cbn [app] in *. cbn [rd step]. rewrite (starter_close _ _ C S0), E1. cbn [one].
  change (is_op "," (TOp (u ","))) with true. rewrite E2, <- app_assoc. reflexivity.
Qed.

Lemma Rd_paren ts t : hdok 0 ts -> Rd 0 ts t -> Rd 10 (TOp (u "(") :: ts ++ [TOp (u ")")]) t.
Proof.
  intros H R more r F G. cbn [app]. rewrite <- app_assoc. cbn [app].
  assert (A : reads (GE 0) (ts ++ TOp (u ")") :: more) ([t], TOp (u ")") :: more)) by (apply Rd_reads; [lia|exact R|exact I]).
  destruct (reads_two _ _ _ _ _ _ A G) as (n & E1 & E2). exists (S n).
  destruct ts as [|t0 q]; [destruct H|]. destruct H as (S0 & _). cbn [app] in *. cbn [rd step].
  change (is_op "(" (TOp (u "("))) with true. cbv iota.
  assert (is_op ")" t0 = false) as -> by exact (starter_close t0 (u ")") (or_introl eq_refl) S0).
  rewrite E1. cbn [one]. change (is_op ")" (TOp (u ")"))) with true. exact E2.
Qed.
Lemma Rd_tuple ts t js l : hdok 0 ts -> Rd 0 ts t -> Seq js l ->
  Rd 10 (TOp (u "(") :: ts ++ TOp (u ",") :: js ++ [TOp (u ")")]) (PTuple (t :: l)).
Proof.
  intros H R Q more r F G.
  assert (A : reads (GE 0) (ts ++ TOp (u ",") :: js ++ TOp (u ")") :: more) ([t], TOp (u ",") :: js ++ TOp (u ")") :: more)) by (apply Rd_reads; [lia|exact R|exact I]).
  destruct A as [n1 A]. destruct (Q (u ")") [t] more (or_introl eq_refl)) as [n2 B]. destruct G as [n3 G].
  set (n := n1 + n2 + n3).
  apply (rd_le _ n) in A; [|unfold n; lia]. apply (rd_le _ n) in B; [|unfold n; lia]. apply (rd_le _ n) in G; [|unfold n; lia].
  exists (S n). clearbody n.
  replace ((TOp (u "(") :: ts ++ TOp (u ",") :: js ++ [TOp (u ")")]) ++ more) with (TOp (u "(") :: ts ++ TOp (u ",") :: js ++ TOp (u ")") :: more)
    by (cbn [app]; rewrite <- !app_assoc; cbn [app]; rewrite <- !app_assoc; reflexivity).
  destruct ts as [|t0 q]; [destruct H|]. destruct H as (S0 & _). cbn [app] in *. cbn [rd step].
  change (is_op "(" (TOp (u "("))) with true. cbv iota.
  assert (is_op ")" t0 = false) as -> by exact (starter_close t0 (u ")") (or_introl eq_refl) S0).
  rewrite A. cbn [one]. change (is_op ")" (TOp (u ","))) with false. change (is_op "," (TOp (u ","))) with true. cbv iota.
  cbn [app] in B. rewrite B. cbn [seq]. exact G.
Qed.
Lemma Rd_list js l : Seq js l -> Rd 10 (TOp (u "[") :: js ++ [TOp (u "]")]) (PList l).
Proof.
  intros Q more r F G. destruct (reads_two _ _ _ _ _ _ (Q (u "]") [] more (or_intror eq_refl)) G) as (n & E1 & E2).
  exists (S n). cbn [app]. rewrite <- app_assoc. cbn [app rd step].
  change (is_op "(" (TOp (u "["))) with false. change (is_op "[" (TOp (u "["))) with true. cbv iota.
  rewrite E1. exact E2.
Qed.
(** Trailers *)
Lemma Rd_attr ts t a : keyword a = false -> Rd 10 ts t -> Rd 10 (ts ++ [TOp (u "."); TName a]) (PAttr t a).
Proof.
  intros K R more r F [n G]. rewrite <- app_assoc. apply R; [cbn [app follow]; vm_compute; lia|].
  exists (S n). cbn [app rd step]. change (is_op "." (TOp (u "."))) with true. cbv iota. rewrite K. exact G.
Qed.
Lemma Rd_call ts t js l : Rd 10 ts t -> Seq js l -> Rd 10 (ts ++ TOp (u "(") :: js ++ [TOp (u ")")]) (PCall t l).
Proof.
  intros R Q more r F G. rewrite <- app_assoc. apply R; [cbn [app follow]; vm_compute; lia|].
  destruct (reads_two _ _ _ _ _ _ (Q (u ")") [] more (or_introl eq_refl)) G) as (n & E1 & E2).
  exists (S n). cbn [app]. rewrite <- app_assoc. cbn [app rd step].
  change (is_op "." (TOp (u "("))) with false. change (is_op "(" (TOp (u "("))) with true. cbv iota. rewrite E1. exact E2.
Qed.
(** Subscripts *)
Definition Items (js : list tok) (l : list py) : Prop :=
  forall acc more, reads (GItems acc) (js ++ TOp (u "]") :: more) (acc ++ l, more).
Lemma starter_stops t : starter t = true -> stops t = false /\ is_op "]" t = false /\ is_op "}" t = false /\ is_op ":" t = false.
Proof.
  intros S. destruct t as [w|w|w|w|]; try (repeat split; reflexivity). cbn [starter] in S.
  unfold stops, is_op, is_ops.
  destruct (str_eqb_spec w (u ":")) as [->|A]; [discriminate S|].
  destruct (str_eqb_spec w (u ",")) as [->|B]; [discriminate S|].
  destruct (str_eqb_spec w (u "]")) as [->|C]; [discriminate S|].
  destruct (str_eqb_spec w (u "}")) as [->|D]; [discriminate S|]. auto.
Qed.
(* one item: what the reader makes of it before "," or "]" *)
Definition Item (ts : list tok) (t : py) : Prop :=
  hdok 0 ts /\ forall more, (exists o r, more = TOp o :: r /\ (o = u "," \/ o = u "]")) ->
    exists n, forall m f, n <= m -> item (rd m) (ts ++ more) f = f t more.
Lemma Item_expr ts t : hdok 0 ts -> Rd 0 ts t -> Item ts t.
Proof.
  intros H R. split; [exact H|]. intros more (o & r & E & O).
  assert (A : reads (GE 0) (ts ++ more) ([t], more)).
  { apply Rd_reads; [lia|exact R|]. subst more. destruct O as [->| ->]; exact I. }
  destruct A as [n A]. exists n. intros m f L. apply (rd_le _ m) in A; [|exact L].
  unfold item, maybe. destruct ts as [|t0 q]; [destruct H|]. destruct H as (S0 & _). destruct (starter_stops _ S0) as (X & _).
  cbn [app] in *. rewrite X, A. cbn [one]. subst more.
  assert (is_op ":" (TOp o) = false) as -> by (destruct O as [->| ->]; reflexivity). reflexivity.
Qed.
Definition colon : tok := TOp (u ":").
Lemma maybe_expr ts t more f m : hdok 0 ts -> rd m (GE 0) (ts ++ more) = Some ([t], more) -> maybe (rd m) (ts ++ more) f = f (Some t) more.
Proof.
  intros H A. unfold maybe. destruct ts as [|t0 q]; [destruct H|]. destruct H as (S0 & _). destruct (starter_stops _ S0) as (X & _).
  cbn [app] in *. rewrite X, A. reflexivity.
Qed.
Lemma Rd0_reads ts t o more : Rd 0 ts t -> bind_level (TOp o) = None -> exists n, forall m, n <= m -> rd m (GE 0) (ts ++ TOp o :: more) = Some ([t], TOp o :: more).
Proof.
  intros R B. assert (A : reads (GE 0) (ts ++ TOp o :: more) ([t], TOp o :: more)).
  { apply Rd_reads; [lia|exact R|]. cbn [follow]. rewrite B. exact I. }
  destruct A as [n A]. exists n. intros m L. apply (rd_le _ m) in A; assumption.
Qed.
Lemma Item_slice1 ta a : hdok 0 ta -> Rd 0 ta a -> Item (ta ++ [colon]) (PSlice (Some a) None None).
Proof.
  intros H R. split; [apply hdok_app, H|]. intros more (o & r & E & O).
  destruct (Rd0_reads ta a (u ":") more R eq_refl) as [n A]. exists n. intros m f L. specialize (A m L).
  rewrite <- app_assoc. cbn [app]. unfold item. unfold colon. rewrite (maybe_expr ta a _ _ m H A).
  change (is_op ":" (TOp (u ":"))) with true. cbv iota. unfold maybe. subst more.
  assert (stops (TOp o) = true) as -> by (destruct O as [->| ->]; reflexivity).
  assert (is_op ":" (TOp o) = false) as -> by (destruct O as [->| ->]; reflexivity). reflexivity.
Qed.
Lemma Item_slice2 ta a tb b : hdok 0 ta -> Rd 0 ta a -> hdok 0 tb -> Rd 0 tb b ->
  Item (ta ++ colon :: tb) (PSlice (Some a) (Some b) None).
Proof.
  intros H R H2 R2. split; [apply hdok_app, H|]. intros more (o & r & E & O).
  destruct (Rd0_reads ta a (u ":") (tb ++ more) R eq_refl) as [n A]. subst more.
  assert (BO : bind_level (TOp o) = None) by (destruct O as [->| ->]; reflexivity).
  destruct (Rd0_reads tb b o r R2 BO) as [n2 B].
  exists (n + n2). intros m f L. specialize (A m ltac:(lia)). specialize (B m ltac:(lia)).
  rewrite <- app_assoc. cbn [app]. unfold item. unfold colon. rewrite (maybe_expr ta a _ _ m H A).
  change (is_op ":" (TOp (u ":"))) with true. cbv iota. rewrite (maybe_expr tb b _ _ m H2 B).
  assert (is_op ":" (TOp o) = false) as -> by (destruct O as [->| ->]; reflexivity). reflexivity.
Qed.
Lemma Item_slice3 ta a tb b tc c : hdok 0 ta -> Rd 0 ta a -> hdok 0 tb -> Rd 0 tb b -> hdok 0 tc -> Rd 0 tc c ->
  Item (ta ++ colon :: tb ++ colon :: tc) (PSlice (Some a) (Some b) (Some c)).
Proof.
  intros H R H2 R2 H3 R3. split; [apply hdok_app, H|]. intros more (o & r & E & O). subst more.
  destruct (Rd0_reads ta a (u ":") (tb ++ colon :: tc ++ TOp o :: r) R eq_refl) as [n A].
  destruct (Rd0_reads tb b (u ":") (tc ++ TOp o :: r) R2 eq_refl) as [n2 B].
  assert (BO : bind_level (TOp o) = None) by (destruct O as [->| ->]; reflexivity).
  destruct (Rd0_reads tc c o r R3 BO) as [n3 C].
  exists (n + n2 + n3). intros m f L. specialize (A m ltac:(lia)). specialize (B m ltac:(lia)). specialize (C m ltac:(lia)).
  replace ((ta ++ colon :: tb ++ colon :: tc) ++ TOp o :: r) with (ta ++ TOp (u ":") :: tb ++ colon :: tc ++ TOp o :: r)
    by (rewrite <- app_assoc; cbn [app]; rewrite <- app_assoc; reflexivity).
  unfold item. rewrite (maybe_expr ta a _ _ m H A).
  change (is_op ":" (TOp (u ":"))) with true. cbv iota. unfold colon. rewrite (maybe_expr tb b _ _ m H2 B).
  change (is_op ":" (TOp (u ":"))) with true. cbv iota. rewrite (maybe_expr tc c _ _ m H3 C). reflexivity.
Qed.
Lemma Items_one ts t : Item ts t -> Items ts [t].
Proof.
  intros [H I] acc more. destruct (I (TOp (u "]") :: more)) as [n A]; [exists (u "]"), more; auto|].
  exists (S n). destruct ts as [|t0 q]; [destruct H|]. destruct H as (S0 & _). destruct (starter_stops _ S0) as (_ & X & _).
  cbn [app] in *. cbn [rd step]. rewrite X, (A n _ (le_n n)). reflexivity.
Qed.
Lemma Items_cons ts t js l : Item ts t -> Items js l -> Items (ts ++ TOp (u ",") :: js) (t :: l).
Proof.
  intros [H I] J acc more. destruct (I (TOp (u ",") :: js ++ TOp (u "]") :: more)) as [n A]; [exists (u ","); eauto|].
  destruct (J (acc ++ [t]) more) as [n2 B]. exists (S (n + n2)). apply (rd_le _ (n + n2)) in B; [|lia].
  rewrite <- app_assoc. cbn [app]. destruct ts as [|t0 q]; [destruct H|]. destruct H as (S0 & _). destruct (starter_stops _ S0) as (_ & X & _).
  cbn [app] in *. cbn [rd step]. rewrite X, (A (n + n2) _ ltac:(lia)). change (is_op "," (TOp (u ","))) with true. cbv iota.
  rewrite B, <- app_assoc. reflexivity.
Qed.
Lemma Rd_sub ts t js l : l <> [] -> Rd 10 ts t -> Items js l -> Rd 10 (ts ++ TOp (u "[") :: js ++ [TOp (u "]")]) (PSub t l).
Proof.
  intros NL R Q more r F G. rewrite <- app_assoc. apply R; [cbn [app follow]; vm_compute; lia|].
  destruct (reads_two _ _ _ _ _ _ (Q [] more) G) as (n & E1 & E2).
  exists (S n). cbn [app]. rewrite <- app_assoc. cbn [app rd step].
  change (is_op "." (TOp (u "["))) with false. change (is_op "(" (TOp (u "["))) with false. change (is_op "[" (TOp (u "["))) with true. cbv iota. rewrite E1. cbn [seq app].
  destruct l; [congruence|exact E2].
Qed.
(** Tables *)
Definition Dict (js : list tok) (l : list py) : Prop :=
  forall acc more, reads (GDict acc) (js ++ TOp (u "}") :: more) (acc ++ l, more).
Lemma Dict_nil : Dict [] [].
Proof. intros acc more. exists 1. cbn [rd app step]. rewrite app_nil_r. reflexivity. Qed.
Lemma Dict_pair ta a tb b sep js l more acc :
  hdok 0 ta -> Rd 0 ta a -> hdok 0 tb -> Rd 0 tb b ->
  (sep = TOp (u "}") /\ js = [] /\ l = [] \/ sep = TOp (u ",") /\ reads (GDict (acc ++ [a; b])) (js ++ TOp (u "}") :: more) ((acc ++ [a; b]) ++ l, more)) ->
  reads (GDict acc) (ta ++ colon :: tb ++ sep :: match sep with TOp [44%N] => js ++ TOp (u "}") :: more | _ => more end) (acc ++ a :: b :: l, more).
Proof.
  intros H R H2 R2 Q.
  set (rest := match sep with TOp [44%N] => js ++ TOp (u "}") :: more | _ => more end).
  assert (exists o, sep = TOp o /\ bind_level (TOp o) = None) as (o & Eo & Bo).
  { destruct Q as [(-> & _)|(-> & _)]; eexists; split; reflexivity. }
  destruct (Rd0_reads ta a (u ":") (tb ++ sep :: rest) R eq_refl) as [n A].
  destruct (Rd0_reads tb b o rest R2 Bo) as [n2 B].
  assert (exists n3, forall m, n3 <= m -> (if is_op "," sep then rd m (GDict (acc ++ [a; b])) rest else if is_op "}" sep then Some (acc ++ [a; b], rest) else None) = Some (acc ++ a :: b :: l, more)) as [n3 C].
  { destruct Q as [(-> & -> & ->)|(-> & [n3 D])].
    - exists 0. intros m _. subst rest. reflexivity.
    - exists n3. intros m L. subst rest. apply (rd_le _ m) in D; [|exact L]. change (is_op "," (TOp (u ","))) with true. cbv iota. 
      rewrite <- app_assoc in D. exact D. }
  exists (S (n + n2 + n3)). specialize (A (n + n2 + n3) ltac:(lia)). specialize (B (n + n2 + n3) ltac:(lia)). specialize (C (n + n2 + n3) ltac:(lia)).
  clearbody rest. subst sep. destruct ta as [|t0 q]; [destruct H|]. destruct H as (S0 & _). destruct (starter_stops _ S0) as (_ & _ & X & _).
  cbn [app] in *. cbn [rd step]. rewrite X. unfold colon. rewrite A. cbn [one].
  change (is_op ":" (TOp (u ":"))) with true. cbv iota. rewrite B. cbn [one]. exact C.
Qed.
Lemma Dict_one ta a tb b : hdok 0 ta -> Rd 0 ta a -> hdok 0 tb -> Rd 0 tb b -> Dict (ta ++ colon :: tb) [a; b].
Proof.
  intros H R H2 R2 acc more. rewrite <- app_assoc. cbn [app].
  exact (Dict_pair ta a tb b (TOp (u "}")) [] [] more acc H R H2 R2 (or_introl (conj eq_refl (conj eq_refl eq_refl)))).
Qed.
Lemma Dict_cons ta a tb b js l : hdok 0 ta -> Rd 0 ta a -> hdok 0 tb -> Rd 0 tb b -> Dict js l ->
  Dict (ta ++ colon :: tb ++ TOp (u ",") :: js) (a :: b :: l).
Proof.
  intros H R H2 R2 D acc more. rewrite <- app_assoc. cbn [app]. rewrite <- app_assoc. cbn [app].
  exact (Dict_pair ta a tb b (TOp (u ",")) js l more acc H R H2 R2 (or_intror (conj eq_refl (D (acc ++ [a; b]) more)))).
Qed.
Lemma Rd_dict js l : Dict js l -> Rd 10 (TOp (u "{") :: js ++ [TOp (u "}")]) (PDict l).
Proof.
  intros Q more r F G. destruct (reads_two _ _ _ _ _ _ (Q [] more) G) as (n & E1 & E2).
  exists (S n). cbn [app]. rewrite <- app_assoc. cbn [app rd step].
  change (is_op "(" (TOp (u "{"))) with false. change (is_op "[" (TOp (u "{"))) with false. change (is_op "{" (TOp (u "{"))) with true. cbv iota.
  rewrite E1. exact E2.
Qed.
(** Operators *)
Lemma Rd_bin k op t ta a tb b : k <= 9 -> binop k t = Some op -> Rd k ta a -> Rd (S k) tb b -> k <> 3 -> k <> 9 ->
  Rd k (ta ++ t :: tb) (PBin op a b).
Proof.
  intros K O R R2 N3 N9 more r F G. rewrite <- app_assoc. cbn [app]. apply R.
  { cbn [follow]. rewrite (binop_level _ _ _ O). lia. }
  assert (A : reads (GE (S k)) (tb ++ more) ([b], more)) by (apply Rd_reads; [lia|exact R2|exact F]).
  destruct (reads_two _ _ _ _ _ _ A G) as (n & E1 & E2). exists (S n). cbn [rd].
  destruct k as [|[|[|[|[|[|[|[|[|[|k]]]]]]]]]]; try congruence; try lia; cbn [step]; rewrite O, E1; exact E2.
Qed.
Lemma Rd_not ts t : Rd 2 ts t -> Rd 2 (TName (u "not") :: ts) (PNot t).
Proof.
  intros R more r F G. assert (r = ([PNot t], more)) as ->.
  { eapply reads_det; [exact G|]. exists 1. cbn [rd step]. destruct more as [|o q]; [reflexivity|]. reflexivity. }
  assert (follow 2 more \/ exists o q, more = o :: q /\ bind_level o = Some 2) as [F2|(o & q & -> & B)].
  { destruct more as [|o q]; [left; exact I|]. cbn [follow] in *. destruct (bind_level o) as [j|] eqn:Bo; [|left; exact I].
    destruct (Nat.eq_dec j 2); [right; subst j; eauto|left; lia]. }
  - destruct (Rd_reads 2 ts t more ltac:(lia) R F2) as [n A]. exists (S n). cbn [app rd step].
    change (str_eqb (u "not") (u "not")) with true. cbv iota. rewrite A. reflexivity.
  - exfalso. unfold bind_level in B. destruct o; try discriminate B;
      repeat match type of B with (if ?b then _ else _) = _ => destruct b; try discriminate B end.
Qed.
Lemma Rd_cmp op os ta a tb b : hdok 3 ta -> (forall more, cmpop (os ++ more) = Some (op, more)) -> os <> [] -> Rd 4 ta a -> Rd 4 tb b ->
  Rd 2 (ta ++ os ++ tb) (PCmp a [(op, b)]).
Proof.
  intros H C NO R R2 more r F G. rewrite <- app_assoc, <- app_assoc.
  assert (G2 : reads (GL 2 (PCmp a [(op, b)])) more ([PCmp a [(op, b)]], more)).
  { exists 1. cbn [rd step]. destruct more as [|o q]; reflexivity. }
  assert (r = ([PCmp a [(op, b)]], more)) as -> by (eapply reads_det; eassumption).
  assert (OL : follow 4 (os ++ tb ++ more)).
  { destruct os as [|o os]; [congruence|]. cbn [app follow]. specialize (C []). rewrite app_nil_r in C. rewrite (cmpop_level _ _ _ C). lia. }
  apply (step_plain 2 ta _ ltac:(lia) H).
  assert (A : reads (GE 4) (ta ++ os ++ tb ++ more) ([a], os ++ tb ++ more)) by (apply Rd_reads; [lia|exact R|exact OL]).
  assert (B : reads (GE 4) (tb ++ more) ([b], more)) by (apply Rd_reads; [lia|exact R2|apply (follow_le 3); [lia|exact F]]).
  assert (D : reads (GC a [(op, b)]) more ([PCmp a [(op, b)]], more)).
  { exists 1. cbn [rd step]. destruct (cmpop more) as [[o2 q]|] eqn:E; [|reflexivity].
    destruct more as [|o q2]; [discriminate|]. apply cmpop_level in E. cbn [follow] in F. rewrite E in F. lia. }
  assert (E3 : reads (GC a []) (os ++ tb ++ more) ([PCmp a [(op, b)]], more)).
  { destruct (reads_two _ _ _ _ _ _ B D) as (n & E1 & E2). exists (S n). cbn [rd step]. rewrite (C (tb ++ more)), E1. exact E2. }
  assert (E4 : reads (GE 3) (ta ++ os ++ tb ++ more) ([PCmp a [(op, b)]], more)).
  { apply (step_plain 3 ta _ ltac:(lia)).
    - destruct ta as [|t0 q]; [destruct H|]. destruct H as (X & Y & Z). repeat split; [exact X|intros; apply Y; lia|intros W; exfalso; lia].
    - destruct E3 as [n3 E3]. destruct A as [n4 A]. exists (S (n3 + n4)). apply (rd_le _ (S (n3 + n4))) in A; [|lia]. rewrite A. cbn [one].
      apply (rd_le _ (n3 + n4)) in E3; [|lia]. exact E3. }
  destruct (reads_two _ _ _ _ _ _ E4 G) as (n & E1 & E2). exists n. rewrite E1. exact E2.
Qed.
Lemma Rd_power ta a tb b : hdok 10 ta -> Rd 10 ta a -> Rd 8 tb b -> Rd 8 (ta ++ TOp (u "**") :: tb) (PBin (u "**") a b).
Proof.
  intros H R R2 more r F G. rewrite <- app_assoc. cbn [app].
  assert (F8 : follow 8 more).
  { destruct more as [|o q]; [exact I|]. cbn [follow] in *. destruct (bind_level o) as [j|] eqn:B; [|exact I].
    assert (j <> 8); [|lia]. intros ->. unfold bind_level in B. destruct o; try discriminate B;
      repeat match type of B with (if ?b then _ else _) = _ => destruct b; try discriminate B end. }
  assert (A : reads (GE 10) (ta ++ TOp (u "**") :: tb ++ more) ([a], TOp (u "**") :: tb ++ more)).
  { apply Rd_reads; [lia|exact R|]. cbn [follow]. vm_compute. lia. }
  assert (B : reads (GE 8) (tb ++ more) ([b], more)) by (apply Rd_reads; [lia|exact R2|exact F8]).
  assert (C : reads (GL 9 a) (TOp (u "**") :: tb ++ more) ([PBin (u "**") a b], more)).
  { destruct B as [n B]. exists (S n). cbn [rd step]. change (is_op "**" (TOp (u "**"))) with true. cbv iota. rewrite B. reflexivity. }
  assert (D : reads (GE 9) (ta ++ TOp (u "**") :: tb ++ more) ([PBin (u "**") a b], more)).
  { apply (step_plain 9 ta _ ltac:(lia) H). destruct (reads_two _ _ _ _ _ _ A C) as (n & E1 & E2). exists n. rewrite E1. exact E2. }
  apply (step_plain 8 ta _ ltac:(lia) (hdok_le 9 10 _ ltac:(lia) H)).
  destruct (reads_two _ _ _ _ _ _ D G) as (n & E1 & E2). exists n. rewrite E1. exact E2.
Qed.
Lemma Rd_neg o ts t : o = u "-" \/ o = u "+" -> Rd 8 ts t -> Rd 8 (TOp o :: ts) (PNeg o t).
Proof.
  intros O R more r F G.
  assert (F8 : follow 8 more).
  { destruct more as [|x q]; [exact I|]. cbn [follow] in *. destruct (bind_level x) as [j|] eqn:B; [|exact I].
    assert (j <> 8); [|lia]. intros ->. unfold bind_level in B. destruct x; try discriminate B;
      repeat match type of B with (if ?b then _ else _) = _ => destruct b; try discriminate B end. }
  assert (G2 : reads (GL 8 (PNeg o t)) more ([PNeg o t], more)) by (apply GL_stop; [lia|exact F8]).
  assert (r = ([PNeg o t], more)) as -> by (eapply reads_det; eassumption).
  destruct (Rd_reads 8 ts t more ltac:(lia) R F8) as [n A]. exists (S n). cbn [app rd step].
  destruct O as [->| ->]; vm_compute (str_eqb _ _); cbv iota; cbn [orb]; rewrite A; reflexivity.
Qed.
