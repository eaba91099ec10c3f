(** Proofs for C132. *)
From Coq Require Import String Ascii List NArith ZArith PeanoNat Bool Lia.
From Verif Require Import PyBase ScanModel FlexModel FlexProofs10 BufferModel BufferSpec.
Import ListNotations.
Open Scope nat_scope.

Lemma flex_ret : forall c s, exists t m c' r, FlexModel.flex_scan c s = Ret (t, m, c', r).
Proof.
  intros c s. destruct (flex_total_go (length s) c s (Nat.le_refl _)) as (t & m & c' & r & E & _). exists t, m, c', r. exact E.
Qed.
Lemma nul_cons : forall c s a, c <> 0%N -> text_to_nul s a -> text_to_nul (c :: s) (c :: a).
Proof.
  intros c s a D H. destruct H as [s N1|a b N1].
  - apply tn_all. intros [X | X]; [congruence|exact (N1 X)].
  - apply (tn_nul (c :: a) b). intros [X | X]; [congruence|exact (N1 X)].
Qed.
Lemma nul_spec : forall s, text_to_nul s (upto_nul s).
Proof.
  induction s as [|c s IH]; [apply tn_all; intros []|]. cbn [upto_nul]. destruct (N.eqb_spec c 0) as [->|D].
  - apply (tn_nul [] s). intros [].
  - apply nul_cons; [exact D|exact IH].
Qed.
Lemma nul_unique : forall s a b, text_to_nul s a -> text_to_nul s b -> a = b.
Proof.
  assert (G : forall s a, text_to_nul s a -> a = upto_nul s).
  { intros s a H. destruct H as [s N1|a b N1].
    - induction s as [|c s IH]; [reflexivity|]. cbn [upto_nul]. destruct (N.eqb_spec c 0) as [->|D]; [exfalso; apply N1; now left|].
      f_equal. apply IH. intros X; apply N1; now right.
    - induction a as [|c a IH]; [reflexivity|]. cbn [upto_nul app]. destruct (N.eqb_spec c 0) as [->|D]; [exfalso; apply N1; now left|].
      f_equal. apply IH. intros X; apply N1; now right. }
  intros s a b A B. rewrite (G _ _ A). symmetry. exact (G _ _ B).
Qed.

(** * Reading tokens one after the other *)
Inductive chain : start -> str -> list entry -> start -> str -> Prop :=
| ch_nil : forall c s, chain c s [] c s
| ch_cons : forall c s t m c' r l c'' r', FlexModel.flex_scan c s = Ret (t, m, c', r) -> chain c' r l c'' r' -> chain c s ((t, m) :: l) c'' r'.
Lemma chain_snoc : forall c s l c1 s1 t m c2 s2, chain c s l c1 s1 -> FlexModel.flex_scan c1 s1 = Ret (t, m, c2, s2) ->
  chain c s (l ++ [(t, m)]) c2 s2.
Proof.
  intros c s l c1 s1 t m c2 s2 H. induction H as [c s|c s t0 m0 c' r l c'' r' E H IH]; intros F.
  - apply (ch_cons _ _ _ _ _ _ _ _ _ F). apply ch_nil.
  - cbn [app]. exact (ch_cons _ _ _ _ _ _ _ _ _ E (IH F)).
Qed.
Lemma chain_nth : forall c s l c1 s1, chain c s l c1 s1 -> forall n t m, nth_error l n = Some (t, m) -> nth_token c s n t m.
Proof.
  intros c s l c1 s1 H. induction H as [c s|c s t0 m0 c' r l c'' r' E H IH]; intros n t m Q; [destruct n; discriminate Q|].
  destruct n as [|n]; cbn [nth_error] in Q.
  - injection Q as -> ->. exact (nt_first _ _ _ _ _ _ E).
  - exact (nt_next _ _ _ _ _ _ _ _ _ E (IH n t m Q)).
Qed.
Lemma nth_token_det : forall c s n t m, nth_token c s n t m -> forall t' m', nth_token c s n t' m' -> t = t' /\ m = m'.
Proof.
  intros c s n t m H. induction H as [c s t m c' r E|c s t m c' r n t' m' E H IH]; intros t1 m1 H1; inversion H1; subst.
  - rewrite E in *. match goal with X : Ret _ = Ret _ |- _ => injection X as <- <- _ _ end. now split.
  - rewrite E in *. match goal with X : Ret _ = Ret _ |- _ => injection X as <- <- <- <- end. apply IH. assumption.
Qed.

(** * The list *)
Lemma prepare_alive : forall s b l, alive b l -> exists b', c_prepare s b = Some (RNone, b') /\ alive b' [] /\ cb_start b' = Initial /\ cb_text b' = upto_nul s.
Proof.
  intros s b l H. unfold c_prepare.
  assert (E : can_release (cb_cells b) (cb_len b) && can_free (cb_cells b) = true).
  { destruct H as [c t|l room c t A B]; [reflexivity|]. unfold can_release, can_free; cbn [cb_cells cb_len]. rewrite N.leb_refl, orb_true_r. reflexivity. }
  rewrite E. eexists. split; [reflexivity|]. split; [|split; reflexivity].
  apply (al_live [] mem_alloc_size); unfold mem_alloc_size; cbn [length]; lia.
Qed.
Lemma scan_alive : forall b l, alive b l -> exists t m c r b', FlexModel.flex_scan (cb_start b) (cb_text b) = Ret (t, m, c, r) /\
  c_scan b = Some (RNone, b') /\ alive b' (l ++ [(t, m)]) /\ cb_start b' = c /\ cb_text b' = r.
Proof.
  intros b l H. destruct (flex_ret (cb_start b) (cb_text b)) as (t & m & c & r & E). exists t, m, c, r.
  unfold c_scan. rewrite E. unfold c_grow. cbn [cb_cells cb_len cb_alloc cb_start cb_text].
  destruct H as [c0 s0|l room c0 s0 A B]; cbn [cb_cells cb_len cb_alloc cb_start cb_text] in *.
  - cbn [N.add N.ltb N.compare]. unfold c_store. cbn [cb_cells cb_len cb_alloc cb_start cb_text].
    eexists. split; [reflexivity|]. split; [reflexivity|]. split; [|split; reflexivity].
    apply (al_live [(t, m)] mem_alloc_size); unfold mem_alloc_size; cbn [length]; lia.
  - assert (L1 : N.of_nat (length (l ++ [(t, m)])) = (N.of_nat (length l) + 1)%N) by (rewrite app_length; cbn [length]; lia).
    destruct (N.ltb_spec room (N.of_nat (length l) + 1)) as [G|G]; unfold c_store; cbn [cb_cells cb_len cb_alloc cb_start cb_text].
    + assert (K : (N.of_nat (length l) <? room + mem_alloc_size)%N = true) by (apply N.ltb_lt; unfold mem_alloc_size; lia).
      rewrite K, Nat2N.id, firstn_all. eexists. split; [reflexivity|]. split; [reflexivity|]. split; [|split; reflexivity].
      rewrite <- L1. apply al_live; rewrite L1; unfold mem_alloc_size in *; lia.
    + assert (K : (N.of_nat (length l) <? room)%N = true) by (apply N.ltb_lt; lia).
      rewrite K, Nat2N.id, firstn_all. eexists. split; [reflexivity|]. split; [reflexivity|]. split; [|split; reflexivity].
      rewrite <- L1. apply al_live; rewrite L1; lia.
Qed.
Lemma read_alive : forall b l i, alive b l -> c_read i b =
  match nth_error l (N.to_nat i) with Some (t, m) => Some (RTok t m, b) | None => Some (RIndexErr, b) end.
Proof.
  intros b l i H. unfold c_read. destruct H as [c s|l room c s A B]; cbn [cb_cells cb_len].
  - destruct (N.to_nat i); cbn [nth_error]; destruct (N.ltb_spec i 0); try reflexivity; lia.
  - destruct (N.ltb_spec i (N.of_nat (length l))) as [G|G].
    + destruct (nth_error l (N.to_nat i)) as [[t m]|] eqn:E; [reflexivity|]. apply nth_error_None in E. lia.
    + assert (E : nth_error l (N.to_nat i) = None) by (apply nth_error_None; lia). rewrite E. reflexivity.
Qed.
Lemma alive_len : forall b l, alive b l -> cb_len b = N.of_nat (length l).
Proof. intros b l H. destruct H; reflexivity. Qed.
Lemma token_alive : forall i b l, alive b l ->
  (as_size i = N.of_nat (length l) /\ exists t m c r b', FlexModel.flex_scan (cb_start b) (cb_text b) = Ret (t, m, c, r) /\
     c_token i b = Some (RTok t m, b') /\ alive b' (l ++ [(t, m)]) /\ cb_start b' = c /\ cb_text b' = r)
  \/ (exists t m, nth_error l (N.to_nat (as_size i)) = Some (t, m) /\ c_token i b = Some (RTok t m, b))
  \/ ((N.of_nat (length l) < as_size i)%N /\ c_token i b = Some (RIndexErr, b)).
Proof.
  intros i b l H. unfold c_token. rewrite (alive_len _ _ H). destruct (N.eqb_spec (as_size i) (N.of_nat (length l))) as [E|D].
  - left. split; [exact E|]. destruct (scan_alive _ _ H) as (t & m & c & r & b' & F & S & A & B & C). exists t, m, c, r, b'.
    split; [exact F|]. rewrite S, (read_alive _ _ _ A), E, Nat2N.id, nth_error_app2, Nat.sub_diag by lia.
    split; [reflexivity|]. split; [exact A|]. split; [exact B|exact C].
  - right. rewrite (read_alive _ _ _ H). destruct (nth_error l (N.to_nat (as_size i))) as [[t m]|] eqn:E.
    + left. exists t, m. split; reflexivity.
    + right. apply nth_error_None in E. split; [lia|reflexivity].
Qed.
Lemma last_alive : forall b l, alive b l -> c_last_ten b = Some (RToks (skipn (length l - 10) l), b).
Proof.
  intros b l H. unfold c_last_ten. destruct H as [c s|l room c s A B]; [reflexivity|]. cbn [cb_cells cb_len].
  destruct (N.eqb_spec (N.of_nat (length l)) 0) as [Z|Z].
  - destruct l as [|x l]; [reflexivity|cbn [length] in Z; lia].
  - rewrite N.leb_refl, Nat2N.id, firstn_all. do 4 f_equal. destruct (N.leb_spec (N.of_nat (length l)) 10); lia.
Qed.

Definition no_cleanup (o : call) : Prop := match o with Cleanup => False | _ => True end.
Definition fine (x : cres) : Prop := match x with RSystemErr | RFuel => False | _ => True end.
Lemma step_alive : forall o b l, alive b l -> no_cleanup o -> exists x b' l', c_step o b = Some (x, b') /\ fine x /\ alive b' l'.
Proof.
  intros o b l H N1. destruct o as [s|i| |]; cbn [c_step].
  - destruct (prepare_alive s b l H) as (b' & E & A & _). exists RNone, b', []. split; [exact E|]. split; [exact I|exact A].
  - destruct (token_alive i b l H) as [(_ & t & m & c & r & b' & _ & E & A & _) | [(t & m & _ & E) | (_ & E)]].
    + exists (RTok t m), b', (l ++ [(t, m)]). split; [exact E|]. split; [exact I|exact A].
    + exists (RTok t m), b, l. split; [exact E|]. split; [exact I|exact H].
    + exists RIndexErr, b, l. split; [exact E|]. split; [exact I|exact H].
  - rewrite (last_alive b l H). eexists _, b, l. split; [reflexivity|]. split; [exact I|exact H].
  - destruct N1.
Qed.
Lemma run_alive : forall os b l, alive b l -> Forall no_cleanup os -> exists xs b' l', c_run os b = Some (xs, b') /\ Forall fine xs /\ alive b' l'.
Proof.
  induction os as [|o os IH]; intros b l H F.
  - exists [], b, l. split; [reflexivity|]. split; [constructor|exact H].
  - inversion F as [|o' os' F1 F2]; subst. destruct (step_alive o b l H F1) as (x & b1 & l1 & E & X & A).
    destruct (IH b1 l1 A F2) as (xs & b2 & l2 & E2 & X2 & A2). exists (x :: xs), b2, l2. cbn [c_run]. rewrite E, E2.
    split; [reflexivity|]. split; [now constructor|exact A2].
Qed.
(** Room: the list fits, and less than two blocks more than needed are taken. *)
Lemma room_alive : forall b l, alive b l -> (cb_len b <= cb_alloc b <= cb_len b + 4192)%N.
Proof. intros b l H. destruct H; cbn [cb_len cb_alloc]; unfold mem_alloc_size in *; lia. Qed.

(** * Reading the tokens of one text *)
Lemma as_size_pos : forall i, (0 <= i < 2 ^ 31)%Z -> as_size i = Z.to_N i.
Proof. intros i H. unfold as_size. rewrite Z.mod_small by lia. reflexivity. Qed.
Lemma as_size_neg : forall i, (-2 ^ 31 <= i < 0)%Z -> (2 ^ 63 < as_size i)%N.
Proof.
  intros i H. unfold as_size. assert (E : (i mod 2 ^ 64 = i + 2 ^ 64)%Z).
  { symmetry. apply (Z.mod_unique i (2 ^ 64) (-1)); lia. }
  rewrite E. lia.
Qed.
Lemma runs_reads : forall os c s b l, alive b l -> chain c s l (cb_start b) (cb_text b) -> Forall only_reads os -> Forall in_int os ->
  (Z.of_nat (length l + length os) < 2 ^ 31)%Z ->
  exists xs b' l', c_run os b = Some (xs, b') /\ alive b' l' /\ chain c s l' (cb_start b') (cb_text b') /\
    Z.of_nat (length l') = fold_left asked os (Z.of_nat (length l)) /\ length l' <= length l + length os.
Proof.
  induction os as [|o os IH]; intros c s b l H Ch R I B.
  - exists [], b, l. split; [reflexivity|]. split; [exact H|]. split; [exact Ch|]. split; [reflexivity|cbn [length]; lia].
  - inversion R as [|o' os' R1 R2]; subst. inversion I as [|o' os' I1 I2]; subst. cbn [length] in B. cbn [fold_left c_run].
    destruct o as [q|i| |]; [destruct R1| | |destruct R1]; cbn [asked c_step in_int] in *.
    + assert (Neq : as_size i = N.of_nat (length l) -> i = Z.of_nat (length l)).
      { intros E. destruct (Z.lt_ge_cases i 0) as [G|G].
        - pose proof (as_size_neg i ltac:(lia)). lia.
        - rewrite as_size_pos in E by lia. lia. }
      destruct (token_alive i b l H) as [(E & t & m & c1 & r1 & b1 & F & S & A & B1 & C1) | D].
      * rewrite S. apply Neq in E. subst i. rewrite Z.eqb_refl.
        destruct (IH c s b1 (l ++ [(t, m)]) A) as (xs & b2 & l2 & E2 & A2 & Ch2 & L2 & M2).
        { subst c1 r1. exact (chain_snoc _ _ _ _ _ _ _ _ _ Ch F). }
        { exact R2. } { exact I2. } { rewrite app_length. cbn [length]. lia. }
        rewrite E2. eexists _, b2, l2. split; [reflexivity|]. split; [exact A2|]. split; [exact Ch2|].
        rewrite app_length in L2, M2. cbn [length] in L2, M2. split; [|cbn [length]; lia]. rewrite L2. f_equal. lia.
      * assert (NE : i <> Z.of_nat (length l)).
        { intros ->. rewrite as_size_pos in D by lia. destruct D as [(t & m & N1 & _) | (G & _)]; [|lia].
          assert (X : nth_error l (N.to_nat (Z.to_N (Z.of_nat (length l)))) <> None) by congruence. apply nth_error_Some in X. lia. }
        apply Z.eqb_neq in NE. rewrite NE.
        assert (E : exists x, c_token i b = Some (x, b)) by (destruct D as [(t & m & _ & E) | (_ & E)]; eauto).
        destruct E as (x & ->). destruct (IH c s b l H Ch R2 I2 ltac:(lia)) as (xs & b2 & l2 & E2 & A2 & Ch2 & L2 & M2).
        rewrite E2. eexists _, b2, l2. split; [reflexivity|]. split; [exact A2|]. split; [exact Ch2|]. split; [exact L2|cbn [length]; lia].
    + rewrite (last_alive b l H). destruct (IH c s b l H Ch R2 I2 ltac:(lia)) as (xs & b2 & l2 & E2 & A2 & Ch2 & L2 & M2).
      rewrite E2. eexists _, b2, l2. split; [reflexivity|]. split; [exact A2|]. split; [exact Ch2|]. split; [exact L2|cbn [length]; lia].
Qed.

(** * After cleanup *)
Lemma cleanup_dead : forall b l, alive b l -> cb_cells b <> Null -> exists b', c_cleanup b = Some (RSystemErr, b') /\
  cb_cells b' = Freed /\ cb_len b' = 0%N /\ cb_alloc b' = 0%N.
Proof.
  intros b l H N1. unfold c_cleanup. destruct H as [c s|l room c s A B]; [cbn [cb_cells] in N1; congruence|].
  unfold can_release, can_free; cbn [cb_cells cb_len]. rewrite N.leb_refl, orb_true_r. cbn [andb]. eexists. repeat split.
Qed.
Lemma dead : forall b, cb_cells b = Freed -> cb_len b = 0%N -> cb_alloc b = 0%N ->
  (forall s, c_prepare s b = None) /\ c_token 0 b = None /\ c_cleanup b = None /\ c_last_ten b = Some (RToks [], b).
Proof.
  intros b E L A. unfold c_prepare, c_token, c_cleanup, c_last_ten, c_scan, c_grow. rewrite E, L, A. cbn [cb_cells cb_len cb_alloc].
  destruct (flex_ret (cb_start b) (cb_text b)) as (t & m & c & r & F). rewrite F. repeat split.
Qed.

(** * The scanner of FlexModel.v, which keeps only the token looked at *)
Lemma same_token : forall pos b l st, same pos b l st -> (Z.of_nat pos < 2 ^ 31)%Z ->
  exists t m st' b' l', f_token st = Ret (t, m, st') /\ c_token (Z.of_nat pos) b = Some (RTok t m, b') /\ same pos b' l' st' /\
    same (S pos) b' l' (FS (f_inp st') (f_start st') None).
Proof.
  intros pos b l [inp st0 pend] (H & Hs & Ht & Hp) B. cbn [f_start f_inp f_pend] in *.
  assert (Q : as_size (Z.of_nat pos) = N.of_nat pos) by (rewrite as_size_pos by lia; lia).
  unfold f_token. cbn [f_pend f_start f_inp]. destruct pend as [[t m]|].
  - destruct Hp as [L Hn]. exists t, m, (FS inp st0 (Some (t, m))), b, l. split; [reflexivity|].
    destruct (token_alive (Z.of_nat pos) b l H) as [(E & _) | [(t' & m' & Hn' & E) | (E & _)]].
    + rewrite Q in E. lia.
    + rewrite Q, Nat2N.id, Hn in Hn'. injection Hn' as <- <-. split; [exact E|]. split.
      * split; [exact H|]. split; [exact Hs|]. split; [exact Ht|]. cbn [f_pend]. now split.
      * split; [exact H|]. split; [exact Hs|]. split; [exact Ht|]. cbn [f_pend]. exact L.
    + rewrite Q in E. lia.
  - destruct (token_alive (Z.of_nat pos) b l H) as [(E & t & m & c & r & b' & F & T & A & C & R) | [(t' & m' & Hn' & E) | (E & _)]].
    + rewrite Hs, Ht in F. rewrite F. cbn [obind]. exists t, m, (FS r c (Some (t, m))), b', (l ++ [(t, m)]).
      split; [reflexivity|]. split; [exact T|]. split.
      * split; [exact A|]. split; [exact C|]. split; [exact R|]. cbn [f_pend].
        split; [rewrite app_length; cbn [length]; lia|]. rewrite nth_error_app2 by lia. replace (pos - length l) with 0 by lia. reflexivity.
      * split; [exact A|]. split; [exact C|]. split; [exact R|]. cbn [f_pend]. rewrite app_length. cbn [length]. lia.
    + rewrite Q, Nat2N.id in Hn'. assert (X : nth_error l pos <> None) by congruence. apply nth_error_Some in X. lia.
    + rewrite Q in E. lia.
Qed.
