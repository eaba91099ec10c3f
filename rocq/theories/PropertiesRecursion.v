(** C47: the recursion watch on derivations. *)
From Coq Require Import String Ascii List NArith Bool Lia.
From Verif Require Import PyBase PyFacts RecursionModel RecursionSpec RecursionProofs.
Import ListNotations.
Open Scope nat_scope.

(** Asking for a key that is being derived raises and runs nothing. *)
Theorem C47_recursion_refused body n key d f st : In key (called st) ->
  wrapper body (S n) key d f st = (DErr (ERecursion key (called st)), st, []).
Proof. intros H. cbn [wrapper]. apply mem_str in H. now rewrite H. Qed.
(** Whatever the body does, returns, raises or catches, the call stack is as
    before. *)
Theorem C47_stack_restored body n key d f st r st' tr : consistent st -> wrapper body n key d f st = (r, st', tr) -> called st' = called st /\ consistent st'.
Proof. intros C E. destruct (wrapper_good body n _ _ _ _ _ _ _ C E) as (H & _ & C' & _). now split. Qed.
(** No body is started below itself: the stack at every start has no
    repetition. *)
Theorem C47_never_reenters body n key d f st r st' tr : consistent st -> NoDup (called st) -> wrapper body n key d f st = (r, st', tr) ->
  Forall (fun e => NoDup (e_stack e) /\ exists k l, e_stack e = called st ++ k :: l) tr.
Proof.
  intros C N E. destruct (wrapper_good body n _ _ _ _ _ _ _ C E) as (_ & _ & _ & B & D & _). specialize (D N). rewrite Forall_forall in *. intros e He. split; [now apply D|now apply B].
Qed.
(** If only finitely many items can be asked for, every derivation ends and the
    nesting is at most the number of items. *)
Theorem C47_terminates body K key d f s : (forall k d f, In k K -> asks K (body k d f)) -> In key K ->
  exists r st' tr, wrapper body (S (length K)) key d f (mkR [] s) = (r, st', tr) /\ r <> DFuel /\ Forall (fun e => length (e_stack e) <= length K) tr.
Proof.
  intros B Hk. destruct (wrapper body (S (length K)) key d f (mkR [] s)) as [[r st'] tr] eqn:E. exists r, st', tr. split; [reflexivity|].
  assert (consistent (mkR [] s)) as C by (intros H; now elim H).
  destruct (wrapper_total body K B (S (length K)) key d f (mkR [] s) r st' tr C) as [F I]; auto; [constructor|intros x []|cbn; lia|]. split; [exact F|].
  pose proof (C47_never_reenters _ _ _ _ _ _ _ _ _ C (NoDup_nil _) E) as D. rewrite Forall_forall in *. intros e He. apply NoDup_incl_length; [now apply D|now apply I].
Qed.
(** An outermost call: it never ends in a StarDerivationError, all nested bodies
    get the caller's allow_defaults, and it leaves nothing behind that a later
    call could see. *)
Theorem C47_outermost body n key d f s r st' tr : wrapper body (S n) key d f (mkR [] s) = (r, st', tr) ->
  called st' = [] /\ (forall k, r <> DErr (EDerivation k))
  /\ exists tr', tr = mkEntry [key] d f :: tr' /\ Forall (fun e => e_flag e = Some (match f with Some b => b | None => false end)) tr'.
Proof. intros E. destruct (outer_flags _ _ _ _ _ _ _ _ _ E) as (-> & H). split; [reflexivity|exact H]. Qed.
Theorem C47_failure_names_item body n key d f s k st2 tr2 : exec (wrapper body n) (body key d f) (mkR [key] (Some (match f with Some b => b | None => false end))) = (DErr (EDerivation k), st2, tr2) ->
  exists tr, wrapper body (S n) key d f (mkR [] s) = (DErr (EFailure key), mkR [] (Some (match f with Some b => b | None => false end)), tr).
Proof. intros E. rewrite outermost. unfold default_false. rewrite E. now eexists. Qed.
Theorem C47_no_memory body n key d f s s' : wrapper body (S n) key d f (mkR [] s) = wrapper body (S n) key d f (mkR [] s').
Proof. destruct (fresh body (S n) key d f s s') as [H|H]; [exact H|discriminate]. Qed.

(** A derivation of a from b and c, where c needs a: the recursion error is
    caught and b is used. *)
Definition body1 (k : str) (d : N) (f : option bool) : prog :=
  if str_eqb k (u "a") then Call (u "c") d None (fun r => match r with inl v => Done v | inr (ERecursion _ _) => Fail (EOther 1) | inr _ => Call (u "b") d None (fun r => match r with inl v => Done v | inr e => Fail e end) end)
  else if str_eqb k (u "c") then Call (u "a") d None (fun r => match r with inl v => Done v | inr _ => Fail (EDerivation k) end)
  else Done (VStr (u "value of b")).
Example C47_example :
  wrapper body1 4 (u "a") 0%N (Some true) (mkR [] None)
  = (DOk (VStr (u "value of b")), mkR [] (Some true),
     [mkEntry [u "a"] 0 (Some true); mkEntry [u "a"; u "c"] 0 (Some true); mkEntry [u "a"; u "b"] 0 (Some true)])
  /\ fst (fst (wrapper body1 4 (u "c") 0%N None (mkR [] None))) = DErr (EFailure (u "c")).
Proof. split; vm_compute; reflexivity. Qed.
Example C47_meets : forall k d f, In k [u "a"; u "b"; u "c"] -> asks [u "a"; u "b"; u "c"] (body1 k d f).
Proof.
  intros k d f [<-|[<-|[<-|[]]]]; unfold body1; cbn [str_eqb]; try (vm_compute; exact I).
  - replace (str_eqb (u "a") (u "a")) with true by (vm_compute; reflexivity). cbn [asks]. split; [right; right; now left|]. intros [v|[]]; cbn [asks]; auto; (split; [right; now left|]); intros [?|?]; exact I.
  - replace (str_eqb (u "c") (u "a")) with false by (vm_compute; reflexivity). replace (str_eqb (u "c") (u "c")) with true by (vm_compute; reflexivity). cbn [asks]. split; [now left|]. intros [v|e]; exact I.
Qed.
(** The watch looks at the key only: deriving an item in one data block from the
    same item in another block is refused as a recursion. *)
Definition body2 (k : str) (d : N) (f : option bool) : prog :=
  if (d =? 0)%N then Call k 1%N None (fun r => match r with inl v => Done v | inr e => Fail e end) else Done (VStr (u "x")).
Theorem C47_other_block_refuted : exists body key d d', d <> d' /\ fst (fst (wrapper body 5 key d (Some true) (mkR [] None))) = DErr (ERecursion key [key])
  /\ (forall f, exists h, body key d f = Call key d' None h) /\ fst (fst (wrapper body 5 key d' (Some true) (mkR [] None))) = DOk (VStr (u "x")).
Proof.
  exists body2, (u "a"), 0%N, 1%N. split; [discriminate|]. split; [vm_compute; reflexivity|]. split; [intros f; eexists; reflexivity|vm_compute; reflexivity].
Qed.
Remark other_block key : fst (fst (wrapper body2 5 key 0%N (Some true) (mkR [] None))) = DErr (ERecursion key [key])
  /\ fst (fst (wrapper body2 5 key 1%N (Some true) (mkR [] None))) = DOk (VStr (u "x")).
Proof.
  unfold body2. cbn [wrapper called stored mem existsb is_nil app N.eqb exec fst snd]. change (N.eqb 0 0) with true. cbn [exec called stored existsb]. rewrite str_eqb_refl. cbn [orb fst snd called is_nil convert]. split; reflexivity.
Qed.
(** Without the keyword the outermost body runs with its own default (True for
    derive_item) while all nested ones are told False. *)
Theorem C47_default_keyword_refuted : exists body key e e' e2, snd (wrapper body 4 key 0%N None (mkR [] None)) = [e; e'; e2]
  /\ e_flag e = None /\ e_flag e' = Some false /\ e_flag e2 = Some false.
Proof. exists body1, (u "a"). do 3 eexists. split; [vm_compute; reflexivity|]. split; [reflexivity|]. split; reflexivity. Qed.

Definition recursion_theorems := (C47_recursion_refused, C47_stack_restored, C47_never_reenters, C47_terminates, C47_outermost, C47_failure_names_item, C47_no_memory, C47_other_block_refuted, C47_default_keyword_refuted).
Print Assumptions recursion_theorems.
