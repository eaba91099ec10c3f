(** Proofs for C134. *)
From Coq Require Import String Ascii List NArith ZArith PeanoNat Bool Lia.
From Verif Require Import PyBase StarBlockModel ScanModel FormatModel WriteModel CollectionModel FileModel LengthModel LengthSpec.
Import ListNotations.
Open Scope string_scope.
Open Scope list_scope.

Lemma told_set : forall g hs s, told g hs s (set_hints hs (set_delims g s)).
Proof.
  intros g hs s. split; [|split; [|reflexivity]].
  - intros d. unfold usable. destruct g; cbn [set_hints set_delims z_delims app In]; unfold d_sq, d_dq, d_text, d_tdq, d_tsq;
      (split; [intros H; repeat (destruct H as [<- | H]); try tauto; try (right; right; right; right; split; [tauto|]; tauto)
              |intros H; repeat (destruct H as [-> | H]; [tauto|]); destruct H as [[G | G] [-> | ->]]; try discriminate G; tauto]).
  - destruct g; reflexivity.
Qed.

Lemma length_ok : forall w m s, (w <= m)%Z -> set_length w m s = Ret (Settings w m (z_delims s) (z_list s) (z_hints s)).
Proof. intros w m s H. unfold set_length. destruct (w >? m)%Z eqn:E; [|reflexivity]. apply Z.gtb_lt in E. lia. Qed.
Lemma length_bad : forall w m s, (m < w)%Z -> set_length w m s = Raise StarErr.
Proof. intros w m s H. unfold set_length. destruct (w >? m)%Z eqn:E; [reflexivity|]. rewrite Z.gtb_ltb in E. apply Z.ltb_ge in E. lia. Qed.

Lemma prepare_ok : forall g hs w m l, (w <= m)%Z -> exists l', prepare g hs w m l = (l', Ret tt) /\ Forall2 (ready g hs w m) l l'.
Proof.
  intros g hs w m l H. induction l as [|s l (l' & E & F)]; cbn [prepare].
  - exists []. split; [reflexivity|constructor].
  - rewrite (length_ok _ _ _ H). rewrite E. cbn [fst snd]. eexists. split; [reflexivity|]. constructor; [|exact F].
    split; [|split; reflexivity]. destruct (told_set g hs s) as (A & B & C). split; [exact A|]. split; [exact B|exact C].
Qed.
Lemma prepare_bad : forall g hs w m s l, (m < w)%Z -> exists s', prepare g hs w m (s :: l) = (s' :: l, Raise StarErr) /\
  told g hs s s' /\ z_wrap s' = z_wrap s /\ z_max s' = z_max s.
Proof.
  intros g hs w m s l H. cbn [prepare]. rewrite (length_bad _ _ _ H). eexists. split; [reflexivity|]. split; [apply told_set|]. split; reflexivity.
Qed.

(** A test for lines that are too long. *)
Fixpoint long_at (n : nat) (s : str) : bool :=
  match n, s with
  | O, _ => true
  | S n', c :: r => negb (c =? 10)%N && long_at n' r
  | S _, [] => false
  end.
Fixpoint has_long (n : nat) (s : str) : bool :=
  long_at n s || match s with [] => false | _ :: r => has_long n r end.
Lemma long_at_spec : forall n s, long_at n s = true -> exists l b, s = l ++ b /\ ~ In 10%N l /\ length l = n.
Proof.
  induction n as [|n IH]; intros s H.
  - exists [], s. split; [reflexivity|]. split; [intros []|reflexivity].
  - destruct s as [|c s]; cbn [long_at] in H; [discriminate H|]. apply andb_true_iff in H. destruct H as [H1 H2].
    destruct (IH s H2) as (l & b & -> & N1 & L). exists (c :: l), b. split; [reflexivity|]. split; [|cbn [length]; lia].
    intros [-> | I]; [discriminate H1|contradiction].
Qed.
Lemma has_long_spec : forall n s, has_long (S n) s = true -> too_long n s.
Proof.
  intros n. induction s as [|c s IH]; intros H; cbn [has_long] in H.
  - cbn [long_at orb] in H. discriminate H.
  - apply orb_true_iff in H. destruct H as [H | H].
    + destruct (long_at_spec _ _ H) as (l & b & E & N1 & L). exists [], l, b. split; [exact E|]. split; [exact N1|]. rewrite L. apply Nat.lt_succ_diag_r.
    + destruct (IH H) as (a & l & b & -> & N1 & L). exists (c :: a), l, b. split; [reflexivity|]. split; [exact N1|exact L].
Qed.
