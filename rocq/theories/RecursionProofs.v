From Coq Require Import String Ascii List NArith Bool Lia.
From Verif Require Import PyBase PyFacts RecursionModel RecursionSpec.
Import ListNotations.
Open Scope nat_scope.

Lemma nil_iff {A} (l : list A) : is_nil l = true <-> l = [].
Proof. destruct l; split; intros H; try reflexivity; discriminate. Qed.
Definition call_t := str -> N -> option bool -> rstate -> call_result.
(** What one call guarantees. *)
Definition good_call (call : call_t) : Prop := forall k d f st r st' tr, consistent st -> call k d f st = (r, st', tr) ->
  called st' = called st /\ (called st <> [] -> stored st' = stored st) /\ consistent st' /\ Forall (below_stack (called st)) tr
  /\ (NoDup (called st) -> Forall (fun e => NoDup (e_stack e)) tr) /\ (called st <> [] -> Forall (fun e => e_flag e = stored st) tr).
Lemma exec_good call : good_call call -> forall p st r st' tr, consistent st -> exec call p st = (r, st', tr) ->
  called st' = called st /\ (called st <> [] -> stored st' = stored st) /\ consistent st' /\ Forall (below_stack (called st)) tr
  /\ (NoDup (called st) -> Forall (fun e => NoDup (e_stack e)) tr) /\ (called st <> [] -> Forall (fun e => e_flag e = stored st) tr).
Proof.
  intros G. induction p as [v|e|k d f next IH]; intros st r st' tr C E; cbn [exec] in E.
  - injection E as <- <- <-. repeat split; auto.
  - injection E as <- <- <-. repeat split; auto.
  - destruct (call k d f st) as [[r1 st1] tr1] eqn:E1. destruct (G _ _ _ _ _ _ _ C E1) as (H1 & H2 & H3 & H4 & H5 & H6).
    assert (forall x, (let '(r2, st2, tr2) := exec call (next x) st1 in (r2, st2, tr1 ++ tr2)) = (r, st', tr) ->
      called st' = called st /\ (called st <> [] -> stored st' = stored st) /\ consistent st' /\ Forall (below_stack (called st)) tr
      /\ (NoDup (called st) -> Forall (fun e => NoDup (e_stack e)) tr) /\ (called st <> [] -> Forall (fun e => e_flag e = stored st) tr)) as Step.
    { intros x Ex. destruct (exec call (next x) st1) as [[r2 st2] tr2] eqn:E2. injection Ex as <- <- <-. destruct (IH x _ _ _ _ H3 E2) as (K1 & K2 & K3 & K4 & K5 & K6). rewrite H1 in *.
      split; [exact K1|]. split; [intros N; rewrite K2, H2; auto|]. split; [exact K3|]. split; [now apply Forall_app|]. split; [intros N; apply Forall_app; auto|].
      intros N. apply Forall_app. split; [auto|]. rewrite <- (H2 N). auto. }
    destruct r1 as [v|e|]; [now apply (Step (inl v))|now apply (Step (inr e))|]. injection E as <- <- <-. repeat split; assumption.
Qed.
Lemma mem_str x l : mem str_eqb x l = true <-> In x l.
Proof. apply (mem_In str_eqb str_eqb_spec). Qed.
Lemma below_start s k e : below_stack (s ++ [k]) e -> below_stack s e.
Proof. intros (k' & l & E). exists k, (k' :: l). rewrite E, <- app_assoc. reflexivity. Qed.
Lemma wrapper_good body n : good_call (wrapper body n).
Proof.
  induction n as [|n IH]; intros key d f st r st' tr C E; cbn [wrapper] in E.
  - injection E as <- <- <-. repeat split; auto.
  - destruct (mem str_eqb key (called st)) eqn:Em; [injection E as <- <- <-; repeat split; auto|].
    assert (~ In key (called st)) as Nk by (intros K; apply mem_str in K; rewrite K in Em; discriminate).
    cbn zeta in E.
    assert (forall st1 flag1, called st1 = called st -> stored st1 <> None -> (called st <> [] -> stored st1 = stored st /\ flag1 = stored st) ->
      (let '(r0, st2, tr0) := exec (wrapper body n) (body key d flag1) (mkR (called st1 ++ [key]) (stored st1)) in
       if is_nil (called st2) then (DErr EIndex, st2, mkEntry (called st1 ++ [key]) d flag1 :: tr0)
       else (convert r0 st2, mkR (removelast (called st2)) (stored st2), mkEntry (called st1 ++ [key]) d flag1 :: tr0)) = (r, st', tr) ->
      called st' = called st /\ (called st <> [] -> stored st' = stored st) /\ consistent st' /\ Forall (below_stack (called st)) tr
      /\ (NoDup (called st) -> Forall (fun e => NoDup (e_stack e)) tr) /\ (called st <> [] -> Forall (fun e => e_flag e = stored st) tr)) as Step.
    { intros st1 flag1 Hc Hs Hf Ex. rewrite Hc in Ex. destruct (exec (wrapper body n) (body key d flag1) (mkR (called st ++ [key]) (stored st1))) as [[r0 st2] tr0] eqn:E2.
      assert (consistent (mkR (called st ++ [key]) (stored st1))) as C1 by (intros _; exact Hs).
      destruct (exec_good _ IH _ _ _ _ _ C1 E2) as (H1 & H2 & H3 & H4 & H5 & H6). cbn [called stored] in *.
      assert (called st ++ [key] <> []) as Ne by (destruct (called st); discriminate). specialize (H2 Ne). specialize (H6 Ne).
      assert ((convert r0 st2, mkR (removelast (called st2)) (stored st2), mkEntry (called st ++ [key]) d flag1 :: tr0) = (r, st', tr)) as Ex' by (rewrite <- H1 in Ne; destruct (is_nil (called st2)) eqn:Z; [apply nil_iff in Z; contradiction|exact Ex]).
      clear Ex. injection Ex' as <- <- <-. cbn [called stored]. rewrite H1, removelast_last. split; [reflexivity|]. split; [intros N; rewrite H2; now apply Hf|]. split; [intros N; cbn [stored]; now rewrite H2|].
      split; [constructor; [exists key, []; reflexivity|]; apply (Forall_impl _ (below_start _ _) H4)|].
      split; [intros N|intros N].
      - assert (NoDup (called st ++ [key])) as N' by (apply NoDup_app_iff; split; [exact N|]; split; [constructor; [intros []|constructor]|intros x Hx [<-|[]]; contradiction]).
        constructor; [exact N'|auto].
      - destruct (Hf N) as [F1 F2]. constructor; [exact F2|]. rewrite <- F1. exact H6. }
    destruct (is_nil (called st)) eqn:Ec.
    + apply nil_iff in Ec. apply (Step (mkR [] (Some (match f with Some b => b | None => false end))) f); [now rewrite Ec|discriminate|intros K; now elim K|exact E].
    + destruct (stored st) as [b|] eqn:Es; [|injection E as <- <- <-; repeat split; auto].
      apply (Step st (Some b)); [reflexivity|rewrite Es; discriminate|intros _; rewrite Es; now split|rewrite Es; exact E].
Qed.

(** ** Termination and depth *)
Lemma wrapper_total body K : (forall k d f, In k K -> asks K (body k d f)) -> forall n key d f st r st' tr, consistent st -> NoDup (called st) -> incl (called st) K -> In key K ->
  length K < n + length (called st) -> wrapper body n key d f st = (r, st', tr) -> r <> DFuel /\ Forall (fun e => incl (e_stack e) K) tr.
Proof.
  intros B. induction n as [|n IH]; intros key d f st r st' tr C N I Hk L E; [pose proof (NoDup_incl_length N I); cbn in L; lia|].
  cbn [wrapper] in E. destruct (mem str_eqb key (called st)) eqn:Em; [injection E as <- <- <-; split; [discriminate|constructor]|].
  assert (~ In key (called st)) as Nk by (intros X; apply mem_str in X; rewrite X in Em; discriminate). cbn zeta in E.
  assert (NoDup (called st ++ [key])) as N' by (apply NoDup_app_iff; split; [exact N|]; split; [constructor; [intros []|constructor]|intros x Hx [<-|[]]; contradiction]).
  assert (incl (called st ++ [key]) K) as I' by (intros x Hx; apply in_app_or in Hx; destruct Hx as [Hx|[<-|[]]]; auto).
  assert (forall p st0 r0 st1 tr0, called st0 = called st ++ [key] -> stored st0 <> None -> asks K p -> exec (wrapper body n) p st0 = (r0, st1, tr0) -> r0 <> DFuel /\ Forall (fun e => incl (e_stack e) K) tr0) as X.
  { induction p as [v|e|k d' f' next IHp]; intros st0 r0 st1 tr0 Hc Hs A Ex; cbn [exec] in Ex.
    - injection Ex as <- <- <-. split; [discriminate|constructor].
    - injection Ex as <- <- <-. split; [discriminate|constructor].
    - destruct A as [Ak An]. destruct (wrapper body n k d' f' st0) as [[ra sa] ta] eqn:Ea.
      assert (r0 <> DFuel /\ Forall (fun e => incl (e_stack e) K) tr0 \/ False) as [G|[]]; [|exact G]. left.
      assert (consistent st0) as C0 by (intros _; exact Hs).
      destruct (IH k d' f' st0 ra sa ta C0) as [F1 F2]; [now rewrite Hc|now rewrite Hc|exact Ak|rewrite Hc, app_length; cbn [length]; lia|exact Ea|].
      destruct (wrapper_good _ _ _ _ _ _ _ _ _ C0 Ea) as (G1 & G2 & _). assert (called st0 <> []) as Ne0 by (rewrite Hc; destruct (called st); discriminate).
      destruct ra as [v|e|]; [| |now elim F1].
      + destruct (exec (wrapper body n) (next (inl v)) sa) as [[rb sb] tb] eqn:Eb. injection Ex as <- <- <-. destruct (IHp (inl v) sa rb sb tb) as [P1 P2]; [now rewrite G1|rewrite (G2 Ne0); exact Hs|apply An|exact Eb|]. split; [exact P1|now apply Forall_app].
      + destruct (exec (wrapper body n) (next (inr e)) sa) as [[rb sb] tb] eqn:Eb. injection Ex as <- <- <-. destruct (IHp (inr e) sa rb sb tb) as [P1 P2]; [now rewrite G1|rewrite (G2 Ne0); exact Hs|apply An|exact Eb|]. split; [exact P1|now apply Forall_app]. }
  assert (forall st1 flag1, called st1 = called st -> stored st1 <> None ->
      (let '(r0, st2, tr0) := exec (wrapper body n) (body key d flag1) (mkR (called st1 ++ [key]) (stored st1)) in
       if is_nil (called st2) then (DErr EIndex, st2, mkEntry (called st1 ++ [key]) d flag1 :: tr0)
       else (convert r0 st2, mkR (removelast (called st2)) (stored st2), mkEntry (called st1 ++ [key]) d flag1 :: tr0)) = (r, st', tr) -> r <> DFuel /\ Forall (fun e => incl (e_stack e) K) tr) as Step.
  { intros st1 flag1 Hc Hs Ex. rewrite Hc in Ex. destruct (exec (wrapper body n) (body key d flag1) (mkR (called st ++ [key]) (stored st1))) as [[r0 st2] tr0] eqn:E2.
    destruct (X _ (mkR (called st ++ [key]) (stored st1)) _ _ _ eq_refl Hs (B key d flag1 Hk) E2) as [X1 X2].
    destruct (is_nil (called st2)) eqn:E3; injection Ex as <- <- <-; (split; [|constructor; [exact I'|exact X2]]); [discriminate|].
    unfold convert. destruct r0 as [|[]|]; try discriminate; try contradiction. destruct (called st2) as [|? [|]]; discriminate. }
  destruct (is_nil (called st)) eqn:Ec.
  - apply nil_iff in Ec. apply (Step (mkR [] (Some (match f with Some b => b | None => false end))) f); [now rewrite Ec|discriminate|exact E].
  - destruct (stored st) as [b|] eqn:Es; [|injection E as <- <- <-; split; [discriminate|constructor]]. apply (Step st (Some b)); [reflexivity|rewrite Es; discriminate|rewrite Es; exact E].
Qed.

(** ** An outermost call *)
Definition default_false (f : option bool) : bool := match f with Some b => b | None => false end.
Lemma outermost body n key d f s : wrapper body (S n) key d f (mkR [] s) =
  let '(r, st2, tr) := exec (wrapper body n) (body key d f) (mkR [key] (Some (default_false f))) in
  (match r with DErr (EDerivation _) => DErr (EFailure key) | _ => r end, mkR [] (Some (default_false f)), mkEntry [key] d f :: tr).
Proof.
  cbn [wrapper called stored mem existsb]. cbn zeta. cbn [called stored app is_nil]. change (match f with Some b => b | None => false end) with (default_false f).
  destruct (exec (wrapper body n) (body key d f) (mkR [key] (Some (default_false f)))) as [[r st2] tr] eqn:E.
  assert (consistent (mkR [key] (Some (default_false f)))) as C by (intros _; discriminate).
  destruct (exec_good _ (wrapper_good body n) _ _ _ _ _ C E) as (H1 & H2 & _). cbn [called stored] in *. rewrite H1. cbn [removelast is_nil]. rewrite H2 by discriminate.
  unfold convert. rewrite H1. destruct r as [|[]|]; reflexivity.
Qed.
Theorem fresh body n key d f s s' : wrapper body n key d f (mkR [] s) = wrapper body n key d f (mkR [] s') \/ n = 0.
Proof. destruct n as [|n]; [now right|]. left. now rewrite !outermost. Qed.
Theorem outer_flags body n key d f s r st' tr : wrapper body (S n) key d f (mkR [] s) = (r, st', tr) ->
  st' = mkR [] (Some (default_false f)) /\ (forall k, r <> DErr (EDerivation k))
  /\ exists tr', tr = mkEntry [key] d f :: tr' /\ Forall (fun e => e_flag e = Some (default_false f)) tr'.
Proof.
  rewrite outermost. destruct (exec (wrapper body n) (body key d f) (mkR [key] (Some (default_false f)))) as [[r0 st2] tr0] eqn:E. intros X. injection X as <- <- <-.
  assert (consistent (mkR [key] (Some (default_false f)))) as C by (intros _; discriminate).
  destruct (exec_good _ (wrapper_good body n) _ _ _ _ _ C E) as (_ & _ & _ & _ & _ & H). cbn [called stored] in H. specialize (H ltac:(discriminate)).
  split; [reflexivity|]. split; [intros k; destruct r0 as [|[]|]; discriminate|]. exists tr0. now split.
Qed.
