(** C41: numbers and standard uncertainties are read exactly. *)
From Coq Require Import String Ascii List NArith ZArith QArith Bool.
From Verif Require Import PyBase RegexModel NumberModel NumberSpec NumberProofs NumberProofs3.
Import ListNotations.

(** Every numeral, of any length, is read as its exact value and s.u. *)
Theorem C41_exact : forall n, proper n ->
  exists v e, get_number (text n) = Ret (Some v, e) /\ (v == number n)%Q /\ same e (uncertainty n).
Proof. exact number_whole. Qed.

(** Any text at all: what is returned belongs to the longest numeral the text
    begins with; without one (so for ? and .) there is no value.  The function
    never raises. *)
Theorem C41_prefix : forall s,
  (exists n v e, longest n s /\ get_number s = Ret (Some v, e) /\ (v == number n)%Q /\ same e (uncertainty n))
  \/ (no_numeral s /\ get_number s = Ret (None, None)).
Proof. exact number_prefix. Qed.
Theorem C41_no_value : forall s, (exists c r, s = c :: r /\ ~ In c [45; 46]%N /\ (c < 48 \/ 57 < c)%N) \/ s = [46%N] ->
  get_number s = Ret (None, None).
Proof.
  intros s H. destruct (number_prefix s) as [(n & _ & _ & (P & (rest & E) & _) & _)|[_ G]]; [exfalso|exact G].
  destruct (n_neg n) eqn:En.
  - assert (exists r, s = 45%N :: r) as [r ->] by (rewrite E; unfold text, base_text; rewrite En; eexists; reflexivity).
    destruct H as [(c & r' & F & Nc & _)|F]; [|discriminate]. injection F as <- _. apply Nc. now left.
  - destruct (n_int n) as [|d i] eqn:Ei.
    + destruct (p_some _ P) as [K|(f & Ef & Nf)]; [now elim K|]. destruct f as [|f0 f]; [now elim Nf|].
      assert (exists a r, s = 46%N :: a :: r) as (a & r & ->) by (rewrite E; unfold text, base_text; rewrite En, Ei, Ef; eexists; eexists; reflexivity).
      destruct H as [(c & r' & F & Nc & _)|F]; [|discriminate]. injection F as <- _. apply Nc. right. now left.
    + pose proof (p_int _ P) as Hd. rewrite Ei in Hd. apply Forall_inv in Hd.
      assert (exists r, s = (48 + d)%N :: r) as (r & ->) by (rewrite E; unfold text, base_text; rewrite En, Ei; eexists; reflexivity).
      destruct H as [(c & r' & F & _ & Hc)|F].
      * assert ((48 + d)%N = c) as <- by (pose proof (f_equal (hd 0%N) F) as K; exact K). destruct Hc as [Hc|Hc]; apply N.lt_nge in Hc; apply Hc; [apply N.le_add_r|].
        apply (N.add_le_mono_l d 9 48). now apply N.lt_succ_r.
      * assert ((48 + d)%N = 46%N) as K by (pose proof (f_equal (hd 0%N) F) as K; exact K). assert (48 <= 46)%N as L by (rewrite <- K; apply N.le_add_r). now apply L.
Qed.
Theorem C41_unknown : get_number (u "?") = Ret (None, None) /\ get_number (u ".") = Ret (None, None).
Proof. split; reflexivity. Qed.

(** The conversion that ignores the s.u. *)
Theorem C41_float_plain : forall n, proper n -> n_su n = None ->
  (forall l g x, n_exp n = Some (l, g, x) -> In l [101; 69]%N) ->
  exists q, float_with_esd (text n) = Ret q /\ (q == number n)%Q.
Proof. exact float_plain. Qed.
Theorem C41_float_su : forall n e, proper n -> n_su n = Some e -> n_exp n = None ->
  exists q, float_with_esd (text n) = Ret q /\ (q == number n)%Q.
Proof.
  intros n e P Es Ee. destruct (float_su n e P Es) as (q & H & E). exists q. split; [exact H|]. rewrite E.
  unfold number, magnitude, exponent, frac_digits. cbn. rewrite Ee. reflexivity.
Qed.

(** ** Where the code departs from the property *)
(** A plus sign, which the CIF grammar allows, is not read. *)
Theorem C41_plus_refuted : exists n, proper n /\ n_neg n = false /\ get_number (43%N :: text n) = Ret (None, None).
Proof.
  exists (mkNum false [1%N] (Some [5%N]) None None). split; [|split; reflexivity].
  split; cbn; [repeat constructor|intros f E; injection E as <-; repeat constructor|left; discriminate|discriminate|discriminate].
Qed.
(** An s.u. after the exponent, where the CIF 1.1 grammar puts it, is dropped. *)
Theorem C41_su_last_refuted : exists n e v, proper n /\ n_exp n <> None /\ all_digits e /\
  get_number (text n ++ 40%N :: dtext e ++ [41%N]) = Ret (Some v, None).
Proof.
  exists (mkNum false [1%N] (Some [5%N]) None (Some (101%N, None, [4%N]))), [3%N]. eexists.
  split; [|split; [discriminate|split; [repeat constructor|vm_compute; reflexivity]]].
  split; cbn; [repeat constructor|intros f E; injection E as <-; repeat constructor|left; discriminate|discriminate|].
  intros l g x E. injection E as <- <- <-. split; [now left|]. split; [repeat constructor|discriminate].
Qed.
(** A text that merely begins with a numeral is read as a number. *)
Theorem C41_trailing_refuted : exists s v, (forall n, proper n -> s <> text n) /\ get_number s = Ret (Some v, None).
Proof.
  exists (u "2003-10-01"). eexists. split; [|vm_compute; reflexivity].
  intros n P E. destruct (number_whole n P) as (v & e & G & _). rewrite <- E in G.
  pose proof (longest_whole n (mkNum false [2; 0; 0; 3]%N None None None) P) as L.
  assert (mkNum false [2; 0; 0; 3]%N None None None = n) as <-; [|discriminate].
  destruct (numerals_cmp (mkNum false [2; 0; 0; 3]%N None None None) n (u "-10-01") []) as [H|H].
  - split; cbn; [repeat constructor|discriminate|left; discriminate|discriminate|discriminate].
  - exact P.
  - split; cbn.
    + intros K. now elim K.
    + intros _ (m & r & Pm & Nm & F). unfold exp_text in F. destruct (n_exp m) as [[[l g] x]|] eqn:Ex; [|now elim Nm]. injection F as F _. subst l.
      destruct (p_exp _ Pm _ _ _ Ex) as ([K|[K|[K|[K|[]]]]] & _); discriminate.
    + intros _ _ (e0 & r & _ & _ & F). discriminate.
    + reflexivity.
    + intros _ _ _ [r F]. discriminate.
  - rewrite app_nil_r. exact E.
  - now symmetry.
  - exfalso. rewrite <- E in H. vm_compute in H. repeat (apply le_S_n in H || inversion H).
Qed.
(** float_with_esd loses the exponent after an s.u., and refuses the old d and D
    exponents that get_number_with_esd reads. *)
Theorem C41_float_exponent_refuted : exists n q, proper n /\ float_with_esd (text n) = Ret q /\ ~ (q == number n)%Q.
Proof.
  exists (mkNum false [1%N] (Some [5%N]) (Some [3%N]) (Some (101%N, None, [4%N]))). eexists.
  split; [|split; [vm_compute; reflexivity|vm_compute; discriminate]].
  split; cbn; [repeat constructor|intros f E; injection E as <-; repeat constructor|left; discriminate|intros f E; injection E as <-; split; [repeat constructor|discriminate]|].
  intros l g x E. injection E as <- <- <-. split; [now left|]. split; [repeat constructor|discriminate].
Qed.
Theorem C41_float_d_refuted : exists n v, proper n /\ get_number (text n) = Ret (Some v, None) /\ float_with_esd (text n) = Raise ValueErr.
Proof.
  exists (mkNum false [1%N] None None (Some (100%N, None, [4%N]))). eexists.
  split; [|split; vm_compute; reflexivity].
  split; cbn; [repeat constructor|discriminate|left; discriminate|discriminate|].
  intros l g x E. injection E as <- <- <-. split; [right; right; now left|]. split; [repeat constructor|discriminate].
Qed.

(** ** Example: -12.345(67)E-3 *)
Definition ex_num : numeral := mkNum true [1; 2]%N (Some [3; 4; 5]%N) (Some [6; 7]%N) (Some (69%N, Some true, [3%N])).
Lemma ex_num_proper : proper ex_num.
Proof.
  split; cbn; [repeat constructor|intros f E; injection E as <-; repeat constructor|left; discriminate|intros f E; injection E as <-; split; [repeat constructor|discriminate]|].
  intros l g x E. injection E as <- <- <-. split; [right; now left|]. split; [repeat constructor|discriminate].
Qed.
Example C41_example : proper ex_num /\ text ex_num = u "-12.345(67)E-3" /\ (number ex_num == -12345 # 1000000)%Q
  /\ same (uncertainty ex_num) (Some (67 # 1000000)%Q)
  /\ exists v e, get_number (u "-12.345(67)E-3") = Ret (Some v, Some e) /\ (v == -12345 # 1000000)%Q /\ (e == 67 # 1000000)%Q.
Proof.
  split; [exact ex_num_proper|]. split; [reflexivity|]. split; [reflexivity|]. split; [reflexivity|].
  eexists; eexists. split; [vm_compute; reflexivity|split; reflexivity].
Qed.
Example C41_float_example : exists n, proper n /\ n_su n <> None /\ n_exp n = None /\ text n = u ".5(10)".
Proof.
  exists (mkNum false [] (Some [5%N]) (Some [1; 0]%N) None). split; [|split; [discriminate|split; reflexivity]].
  split; cbn; [constructor|intros f E; injection E as <-; repeat constructor|right; eexists; split; [reflexivity|discriminate]|intros f E; injection E as <-; split; [repeat constructor|discriminate]|discriminate].
Qed.

Definition number_theorems :=
  (C41_exact, C41_prefix, C41_no_value, C41_unknown, C41_float_plain, C41_float_su,
   C41_plus_refuted, C41_su_last_refuted, C41_trailing_refuted, C41_float_exponent_refuted, C41_float_d_refuted).
Print Assumptions number_theorems.
