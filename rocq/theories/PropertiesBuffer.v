(** C132: the list of tokens of the compiled scanner. *)
From Coq Require Import String Ascii List NArith ZArith PeanoNat Bool Lia.
From Verif Require Import PyBase ScanModel FlexModel BufferModel BufferSpec BufferProofs.
Import ListNotations.
Open Scope nat_scope.

(** Without cleanup no call touches memory that is not there, whatever the calls and
    their order, and the room taken is at most 4192 tokens more than needed. *)
Theorem C132_safe : forall os, (forall o, In o os -> o <> Cleanup) ->
  exists xs b, c_run os cb_init = Some (xs, b) /\ (forall x, In x xs -> x <> RSystemErr /\ x <> RFuel) /\
    (cb_len b <= cb_alloc b <= cb_len b + 4192)%N.
Proof.
  intros os H. destruct (run_alive os cb_init [] (al_null _ _)) as (xs & b & l & E & F & A).
  { apply Forall_forall. intros o I. specialize (H o I). destruct o; cbn; congruence || exact I || tauto. }
  exists xs, b. split; [exact E|]. split; [|exact (room_alive _ _ A)].
  intros x I. rewrite Forall_forall in F. specialize (F x I). destruct x; cbn in F; try destruct F; split; discriminate.
Qed.
Definition small : str := u "data_a" ++ [10%N] ++ u "_b 1 ".
Definition calls : list call := [LastTen; Token 0; Prepare small; Token 0; Token 1; Token 1; Token 5; Token (-1); Token 2; LastTen].
Example C132_safe_meets : (forall o, In o calls -> o <> Cleanup) /\
  option_map fst (c_run calls cb_init) = Some [RToks []; RTok (Some End) []; RNone; RTok (Some DataHeading) (u "data_a"); RTok (Some DataName) (u "_b");
    RTok (Some DataName) (u "_b"); RIndexErr; RIndexErr; RTok (Some Value1) (u "1");
    RToks [(Some DataHeading, u "data_a"); (Some DataName, u "_b"); (Some Value1, u "1")]].
Proof. split; [|vm_compute; reflexivity]. intros o I. cbn [calls In] in I. intuition congruence. Qed.

(** After a text has been prepared, whatever was read before: token number [i] of the text is
    given if it was read before or is the next one, any other number is an IndexError and
    changes nothing.  The last ten are those read last, in order. *)
Theorem C132_token : forall before os s text,
  (forall o, In o before -> o <> Cleanup) -> Forall only_reads os -> Forall in_int os -> (Z.of_nat (length os) < 2 ^ 31)%Z ->
  text_to_nul s text ->
  exists xs b, c_run (before ++ Prepare s :: os) cb_init = Some (xs, b) /\ forall i, (-2 ^ 31 <= i < 2 ^ 31)%Z ->
    ((0 <= i <= read_by os)%Z -> exists t m b', c_step (Token i) b = Some (RTok t m, b') /\ nth_token Initial text (Z.to_nat i) t m) /\
    ((i < 0 \/ read_by os < i)%Z -> c_step (Token i) b = Some (RIndexErr, b)) /\
    exists l, c_step LastTen b = Some (RToks l, b) /\ Z.of_nat (length l) = Z.min 10 (read_by os) /\
      forall k t m, nth_error l k = Some (t, m) -> nth_token Initial text (Z.to_nat (read_by os) - length l + k) t m.
Proof.
  intros before os s text Hb Ho Hi Hl Ht.
  assert (text = upto_nul s) as -> by exact (nul_unique _ _ _ Ht (nul_spec s)).
  destruct (run_alive before cb_init [] (al_null _ _)) as (xs0 & b0 & l0 & E0 & _ & A0).
  { apply Forall_forall. intros o I. specialize (Hb o I). destruct o; cbn; congruence || exact I || tauto. }
  destruct (prepare_alive s b0 l0 A0) as (b1 & E1 & A1 & S1 & T1).
  destruct (runs_reads os Initial (upto_nul s) b1 [] A1) as (xs & b & l & E & A & Ch & L & _).
  { rewrite S1, T1. apply ch_nil. } { exact Ho. } { exact Hi. } { exact Hl. }
  change (Z.of_nat (length (@nil entry))) with 0%Z in L. fold (read_by os) in L.
  exists (xs0 ++ RNone :: xs), b. split.
  { clear - E0 E1 E. revert xs0 E0. generalize cb_init. induction before as [|o before IH]; intros st xs0 E0; cbn [app c_run] in *.
    - injection E0 as <- ->. cbn [c_step]. rewrite E1, E. reflexivity.
    - destruct (c_step o st) as [[x st']|]; [|discriminate E0]. destruct (c_run before st') as [[ys st'']|] eqn:Q; [|discriminate E0].
      injection E0 as <- ->. rewrite (IH st' ys Q). reflexivity. }
  intros i Hin. split; [|split].
  - intros R. cbn [c_step]. destruct (token_alive i b l A) as [(Z1 & t & m & c & r & b' & F & T & A' & _) | [(t & m & N1 & T) | (G & _)]].
    + exists t, m, b'. split; [exact T|]. rewrite as_size_pos in Z1 by lia.
      replace (Z.to_nat i) with (length l) by lia.
      apply (chain_nth _ _ _ _ _ (chain_snoc _ _ _ _ _ _ _ _ _ Ch F)). rewrite nth_error_app2, Nat.sub_diag by lia. reflexivity.
    + exists t, m, b. split; [exact T|]. rewrite as_size_pos in N1 by lia. rewrite Z_N_nat in N1. exact (chain_nth _ _ _ _ _ Ch _ _ _ N1).
    + rewrite as_size_pos in G by lia. lia.
  - intros R. cbn [c_step].
    assert (Big : (N.of_nat (length l) < as_size i)%N).
    { destruct (Z.lt_ge_cases i 0) as [G|G].
      - pose proof (as_size_neg i ltac:(lia)). assert (read_by os < 2 ^ 31)%Z; [|lia].
        { assert (B : forall n, (fold_left asked os n <= n + Z.of_nat (length os))%Z).
          { clear. induction os as [|o os IH]; intros n; cbn [fold_left length]; [lia|].
            specialize (IH (asked n o)). assert (asked n o <= n + 1)%Z; [|lia]. destruct o; cbn [asked]; try lia. destruct (Z.eqb i n); lia. }
          specialize (B 0%Z). unfold read_by. lia. }
      - rewrite as_size_pos by lia. lia. }
    destruct (token_alive i b l A) as [(Z1 & _) | [(t & m & N1 & T) | (_ & T)]]; [lia| |exact T].
    assert (X : nth_error l (N.to_nat (as_size i)) <> None) by congruence. apply nth_error_Some in X. lia.
  - exists (skipn (length l - 10) l). cbn [c_step]. split; [exact (last_alive b l A)|]. split.
    + rewrite skipn_length. lia.
    + intros k t m N1. apply (chain_nth _ _ _ _ _ Ch).
      rewrite skipn_length. replace (Z.to_nat (read_by os)) with (length l) by lia.
      rewrite <- N1. replace (length l - (length l - (length l - 10)) + k) with ((length l - 10) + k) by lia.
      clear. generalize (length l - 10) as n. intros n. revert l. induction n as [|n IH]; intros l; [reflexivity|].
      destruct l as [|x l]; [destruct k; reflexivity|]. cbn [Nat.add nth_error skipn]. apply IH.
Qed.
(** There is only one such token. *)
Theorem C132_token_unique : forall c s n t m t' m', nth_token c s n t m -> nth_token c s n t' m' -> t = t' /\ m = m'.
Proof. intros c s n t m t' m' A B. exact (nth_token_det c s n t m A t' m' B). Qed.
Example C132_token_meets : Forall only_reads [Token 0; Token 1; LastTen] /\ Forall in_int [Token 0; Token 1; LastTen] /\
  text_to_nul (small ++ 0%N :: u "_c") small /\ read_by [Token 0; Token 1; LastTen] = 2%Z /\
  nth_token Initial small 1 (Some DataName) (u "_b").
Proof.
  split; [repeat (apply Forall_cons; [exact I|]); apply Forall_nil|].
  split; [repeat (apply Forall_cons; [cbn; lia|]); apply Forall_nil|].
  split; [apply tn_nul; vm_compute; intuition discriminate|]. split; [reflexivity|].
  eapply nt_next; [vm_compute; reflexivity|]. eapply nt_first. vm_compute. reflexivity.
Qed.

(** FlexModel.v keeps only the token looked at.  A parser, which only goes forward, can
    not tell the difference: looking at its next token gives the same, and afterwards
    the two are still the same, whether it goes on or not. *)
Theorem C132_lookahead : forall pos b l st, same pos b l st -> (Z.of_nat pos < 2 ^ 31)%Z ->
  exists t m st' b' l', f_token st = Ret (t, m, st') /\ c_step (Token (Z.of_nat pos)) b = Some (RTok t m, b') /\
    same pos b' l' st' /\ same (S pos) b' l' (FS (f_inp st') (f_start st') None).
Proof. exact same_token. Qed.
Example C132_lookahead_meets : exists b, c_step (Prepare small) cb_init = Some (RNone, b) /\ same 0 b [] (FS small Initial None).
Proof.
  eexists. split; [reflexivity|]. split; [apply (al_live [] 4192%N); cbn [length]; unfold mem_alloc_size; lia|].
  split; [reflexivity|]. split; [vm_compute; reflexivity|reflexivity].
Qed.

(** cleanup gives back the memory but keeps the pointers: after it, preparing another
    text, asking for the first token and a second cleanup all use freed memory.  And it
    is never a success for python. *)
Theorem C132_cleanup : forall os s, (forall o, In o os -> o <> Cleanup) ->
  exists xs b, c_run (os ++ [Prepare s; Cleanup]) cb_init = Some (xs, b) /\ In RSystemErr xs /\
    (forall s', c_step (Prepare s') b = None) /\ c_step (Token 0) b = None /\ c_step Cleanup b = None.
Proof.
  intros os s H. destruct (run_alive os cb_init [] (al_null _ _)) as (xs0 & b0 & l0 & E0 & _ & A0).
  { apply Forall_forall. intros o I. specialize (H o I). destruct o; cbn; congruence || exact I || tauto. }
  destruct (prepare_alive s b0 l0 A0) as (b1 & E1 & A1 & _).
  assert (NN : cb_cells b1 <> Null).
  { unfold c_prepare in E1. destruct (_ && _); [|discriminate E1]. injection E1 as <-. discriminate. }
  destruct (cleanup_dead b1 [] A1 NN) as (b2 & E2 & C & L & R).
  exists (xs0 ++ [RNone; RSystemErr]), b2. split.
  { clear - E0 E1 E2. revert xs0 E0. generalize cb_init. induction os as [|o os IH]; intros st xs0 E0; cbn [app c_run] in *.
    - injection E0 as <- ->. cbn [c_step]. rewrite E1, E2. reflexivity.
    - destruct (c_step o st) as [[x st']|]; [|discriminate E0]. destruct (c_run os st') as [[ys st'']|] eqn:Q; [|discriminate E0].
      injection E0 as <- ->. rewrite (IH st' ys Q). reflexivity. }
  split; [apply in_or_app; right; right; now left|].
  destruct (dead b2 C L R) as (D1 & D2 & D3 & _). split; [exact D1|]. split; [exact D2|exact D3].
Qed.
(** Memory is used after it was freed: a text, cleanup, another text. *)
Theorem C132_cleanup_refuted : exists os, c_run os cb_init = None /\ c_run (removelast os) cb_init <> None.
Proof. exists [Prepare small; Cleanup; Prepare small]. split; [vm_compute; reflexivity|]. vm_compute. discriminate. Qed.

(** The list is global: a scanner that has a text of its own sees the tokens of the
    text that was prepared last. *)
Theorem C132_shared_refuted : exists one two t m xs b,
  c_run [Prepare one; Token 0; Prepare two; Token 0] cb_init = Some (xs, b) /\ nth_error xs 3 = Some (RTok t m) /\
  ~ nth_token Initial one 0 t m.
Proof.
  exists (u "data_one "), (u "data_two "). do 4 eexists. split; [vm_compute; reflexivity|]. split; [reflexivity|].
  intros N1. assert (N2 : nth_token Initial (u "data_one ") 0 (Some DataHeading) (u "data_one")) by (eapply nt_first; vm_compute; reflexivity).
  destruct (nth_token_det _ _ _ _ _ N1 _ _ N2) as [_ X]. vm_compute in X. discriminate X.
Qed.
(** A NUL ends the text without any error: what follows it is not read. *)
Theorem C132_nul_refuted : exists a b, In 0%N a /\ b <> [] /\ (forall o, c_run [Prepare (a ++ b); o] cb_init = c_run [Prepare a; o] cb_init) /\
  exists xs st, c_run [Prepare (a ++ b); Token 0; Token 1] cb_init = Some (xs, st) /\ nth_error xs 2 = Some (RTok (Some End) []).
Proof.
  exists (u "data_a" ++ [0%N]), (u " _b 1 "). split; [vm_compute; tauto|]. split; [discriminate|]. split; [intros o; reflexivity|].
  do 2 eexists. split; [vm_compute; reflexivity|reflexivity].
Qed.

Definition buffer_theorems := (C132_safe, C132_token, C132_token_unique, C132_lookahead, C132_cleanup, C132_cleanup_refuted,
  C132_shared_refuted, C132_nul_refuted).
Print Assumptions buffer_theorems.
