(** Splitting a text into tokens, piece by piece. *)
From Coq Require Import String Ascii List NArith Bool Lia.
From Verif Require Import PyBase PyFacts DrelModel DrelSpec DrelProofs.
Import ListNotations.
Open Scope list_scope.
Open Scope nat_scope.

(** What may follow a name or number, and what an expression starts with. *)
Definition stopc (c : N) : bool := negb (is_word c || N.eqb c 46 || is_quote c).
Definition stop (s : str) : Prop := match s with [] => True | c :: _ => stopc c = true end.
Definition startc (c : N) : bool := is_word c || is_quote c || cmem c (u "([{.").
Definition start (s : str) : Prop := match s with [] => False | c :: _ => startc c = true end.
Definition Lx (s : str) (ts : list tok) : Prop := forall rest, stop rest -> lex LIdle (s ++ rest) = ts ++ lex LIdle rest.
(** A piece after which anything may follow that starts an expression. *)
Definition Lo (s : str) (ts : list tok) : Prop := forall rest, start rest -> lex LIdle (s ++ rest) = ts ++ lex LIdle rest.
(** A piece after which anything may follow. *)
Definition La (s : str) (ts : list tok) : Prop := forall rest, lex LIdle (s ++ rest) = ts ++ lex LIdle rest.

Lemma La_Lx s ts : La s ts -> Lx s ts. Proof. intros H r _. apply H. Qed.
Lemma La_Lo s ts : La s ts -> Lo s ts. Proof. intros H r _. apply H. Qed.
Lemma La_app a b ta tb : La a ta -> La b tb -> La (a ++ b) (ta ++ tb).
Proof. intros A B r. rewrite <- app_assoc, A, B. apply app_assoc. Qed.
Lemma La_Lx_app a b ta tb : La a ta -> Lx b tb -> Lx (a ++ b) (ta ++ tb).
Proof. intros A B r S. rewrite <- app_assoc, A, (B r S). apply app_assoc. Qed.
Lemma Lo_Lx_app a b ta tb : Lo a ta -> Lx b tb -> start b -> Lx (a ++ b) (ta ++ tb).
Proof.
  intros A B S r R. rewrite <- app_assoc, A, (B r R); [apply app_assoc|]. destruct b; [destruct S|exact S].
Qed.
(* the second piece starts with a character that ends a word *)
Lemma Lx_La_app a b ta tb : Lx a ta -> La b tb -> (forall r, stop (b ++ r)) -> La (a ++ b) (ta ++ tb).
Proof. intros A B S r. rewrite <- app_assoc, A, (B r); [apply app_assoc|apply S]. Qed.
Lemma Lx_Lo_app a b ta tb : Lx a ta -> Lo b tb -> (forall r, start r -> stop (b ++ r)) -> Lo (a ++ b) (ta ++ tb).
Proof. intros A B S r R. rewrite <- app_assoc, A, (B r R); [apply app_assoc|apply S, R]. Qed.
Lemma La_Lo_app a b ta tb : La a ta -> Lo b tb -> Lo (a ++ b) (ta ++ tb).
Proof. intros A B r R. rewrite <- app_assoc, A, (B r R). apply app_assoc. Qed.
Lemma La_nil : La [] []. Proof. intros r. reflexivity. Qed.

(** Names *)
Lemma lex_word w : forall acc rest, forallb is_word w = true -> lex (LName acc) (w ++ rest) = lex (LName (acc ++ w)) rest.
Proof.
  induction w as [|c w IH]; intros acc rest H; [rewrite app_nil_r; reflexivity|].
  cbn [forallb] in H. apply andb_true_iff in H as [A B]. cbn [app lex lstep]. rewrite A. cbn [fst snd app].
  rewrite (IH _ _ B). f_equal. rewrite <- app_assoc. reflexivity.
Qed.
Lemma stopc_parts c : stopc c = true -> is_word c = false /\ N.eqb c 46 = false /\ is_quote c = false.
Proof. unfold stopc. rewrite negb_true_iff, !orb_false_iff. tauto. Qed.
Lemma lex_name_end acc rest : stop rest -> lex (LName acc) rest = TName acc :: lex LIdle rest.
Proof.
  destruct rest as [|c r]; [reflexivity|]. intros H. apply stopc_parts in H as (A & B & C).
  cbn [lex lstep]. rewrite A, C. reflexivity.
Qed.
Definition name_text (s : str) : bool :=
  match s with c :: r => (is_letter c || N.eqb c 95) && forallb is_word r | [] => false end.
Lemma letter_not_space c : (is_letter c || N.eqb c 95)%bool = true -> N.eqb c 32 = false.
Proof. intros H. apply N.eqb_neq. intros ->. discriminate H. Qed.
Lemma Lx_name s : name_text s = true -> Lx s [TName s].
Proof.
  destruct s as [|c s]; [discriminate|]. cbn [name_text]. rewrite andb_true_iff. intros [A B] rest S.
  cbn [app lex lstep]. unfold idle. rewrite (letter_not_space _ A), A. cbn [fst snd app].
  rewrite (lex_word s [c] rest B). apply (lex_name_end _ _ S).
Qed.
Lemma identifier_name s : identifier s = true -> name_text s = true /\ keyword s = false.
Proof.
  destruct s as [|c s]; [discriminate|]. cbn [identifier name_text].
  rewrite !andb_true_iff, negb_true_iff. intros [[A B] C]. rewrite A, B. auto.
Qed.

(** Texts *)
Lemma removelast_last_str (r : str) : r <> [] -> r = removelast r ++ [last r 0%N].
Proof. apply app_removelast_last. Qed.
Lemma lex_in_text q w : forall acc rest, is_quote q = true ->
  forallb (fun c => negb (N.eqb c q || N.eqb c 92 || N.eqb c 10)) w = true ->
  lex (LS q acc) (w ++ q :: rest) = TStr (acc ++ w ++ [q]) :: lex LIdle rest.
Proof.
  induction w as [|c w IH]; intros acc rest Q H.
  - cbn [app lex lstep]. rewrite N.eqb_refl. reflexivity.
  - cbn [forallb] in H. apply andb_true_iff in H as [A B]. apply negb_true_iff in A.
    apply orb_false_iff in A as [A A3]. apply orb_false_iff in A as [A1 A2].
    cbn [app lex lstep]. rewrite A1, A2, A3. cbn [fst snd app]. rewrite (IH _ _ Q B), <- !app_assoc. reflexivity.
Qed.
Lemma idle_quote q : is_quote q = true -> idle q = ([], LQ1 q).
Proof. unfold is_quote. rewrite orb_true_iff, !N.eqb_eq. intros [->| ->]; reflexivity. Qed.
Lemma lex_text q w rest : is_quote q = true ->
  forallb (fun c => negb (N.eqb c q || N.eqb c 92 || N.eqb c 10)) w = true ->
  stop rest -> lex LIdle (q :: w ++ q :: rest) = TStr (q :: w ++ [q]) :: lex LIdle rest.
Proof.
  intros Q H S. cbn [lex lstep]. rewrite (idle_quote _ Q). cbn [fst snd app].
  destruct w as [|c w].
  - cbn [app lex lstep]. rewrite N.eqb_refl. cbn [fst snd app].
    destruct rest as [|d r]; [reflexivity|]. apply stopc_parts in S as (_ & _ & C).
    assert (N.eqb d q = false) as D by (apply N.eqb_neq; intros ->; congruence).
    cbn [lex lstep]. rewrite D. cbn [fst snd app and_then]. reflexivity.
  - cbn [forallb] in H. apply andb_true_iff in H as [A B]. apply negb_true_iff in A.
    apply orb_false_iff in A as [A A3]. apply orb_false_iff in A as [A1 A2].
    cbn [app lex lstep]. rewrite A1, A2, A3. cbn [fst snd app]. rewrite (lex_in_text _ _ _ _ Q B). reflexivity.
Qed.
Lemma Lx_text s : short_text s = true -> Lx s [TStr s].
Proof.
  destruct s as [|q r]; [discriminate|]. cbn [short_text]. rewrite !andb_true_iff. intros [[[Q H] E] N] rest S.
  apply N.eqb_eq in E. assert (D : r <> []) by (destruct r; [discriminate N|discriminate]).
  rewrite (removelast_last_str r D), E. cbn [app]. rewrite <- app_assoc.
  cbn [app]. rewrite (lex_text q (removelast r) rest Q H S). reflexivity.
Qed.

(** Numbers *)
Lemma span_split p s : s = fst (span p s) ++ snd (span p s) /\ forallb p (fst (span p s)) = true.
Proof.
  induction s as [|c s [A B]]; [split; reflexivity|]. cbn [span]. destruct (p c) eqn:E; cbn [fst snd]; [|split; reflexivity].
  cbn [app forallb]. rewrite E, B, <- A. split; reflexivity.
Qed.
Lemma digit_word c : is_digit c = true -> is_word c = true.
Proof. unfold is_word. intros ->. rewrite orb_true_r. reflexivity. Qed.
Lemma lex_num_word w : forall acc rest, forallb is_word w = true -> lex (LNum acc) (w ++ rest) = lex (LNum (acc ++ w)) rest.
Proof.
  induction w as [|c w IH]; intros acc rest H; [rewrite app_nil_r; reflexivity|].
  cbn [forallb] in H. apply andb_true_iff in H as [A B]. cbn [app lex lstep]. unfold more_number. rewrite A. cbn [fst snd app orb].
  rewrite (IH _ _ B). f_equal. rewrite <- app_assoc. reflexivity.
Qed.
Lemma forallb_digit_word w : forallb is_digit w = true -> forallb is_word w = true.
Proof. rewrite !forallb_forall. intros H x I. apply digit_word, H, I. Qed.
Lemma lex_num_end acc rest : is_exp (last acc 0%N) = false -> stop rest -> lex (LNum acc) rest = TNum acc :: lex LIdle rest.
Proof.
  intros X. destruct rest as [|c r]; [reflexivity|]. intros H. apply stopc_parts in H as (A & B & C).
  cbn [lex lstep]. unfold more_number. rewrite A, B, X, andb_false_r. reflexivity.
Qed.
Lemma last_app_cons (a : str) c w d : last (a ++ c :: w) d = last (c :: w) d.
Proof. induction a as [|x a IH]; [reflexivity|]. transitivity (last (a ++ c :: w) d); [destruct a; reflexivity|exact IH]. Qed.
Lemma last_digits w d : w <> [] -> forallb is_digit w = true -> is_digit (last w d) = true.
Proof.
  intros N H. rewrite forallb_forall in H. apply H. rewrite (app_removelast_last d N) at 2. apply in_or_app. right. left. reflexivity.
Qed.
Lemma digit_not_exp c : is_digit c = true -> is_exp c = false.
Proof.
  intros H. destruct (is_exp c) eqn:E; [|reflexivity]. unfold is_exp in E. apply orb_true_iff in E as [E|E]; apply N.eqb_eq in E; subst c; discriminate H.
Qed.
Lemma exp_word c : is_exp c = true -> is_word c = true.
Proof. unfold is_exp. rewrite orb_true_iff, !N.eqb_eq. intros [->| ->]; reflexivity. Qed.
Lemma jay_word c : (N.eqb c 106 || N.eqb c 74)%bool = true -> is_word c = true /\ is_exp c = false.
Proof. rewrite orb_true_iff, !N.eqb_eq. intros [->| ->]; split; reflexivity. Qed.
Lemma nonempty_ne s : nonempty s = true -> s <> []. Proof. destruct s; [discriminate|intros _ X; discriminate X]. Qed.

(* the end of a number after digits (and point) already read *)
Lemma lex_num_tail s b acc rest :
  num_tail s = Some b -> is_exp (last acc 0%N) = false -> stop rest ->
  lex (LNum acc) (s ++ rest) = TNum (acc ++ s) :: lex LIdle rest.
Proof.
  intros H X S. unfold num_tail in H. destruct s as [|c r]; [rewrite app_nil_r; apply lex_num_end; assumption|].
  destruct (is_exp c) eqn:E.
  - set (r1 := match r with d :: r' => if is_sign d then r' else r | [] => r end) in *.
    destruct (nonempty (fst (span is_digit r1))) eqn:NE; [|discriminate].
    destruct (span_split is_digit r1) as [Sp Dg].
    assert (Tl : exists j, snd (span is_digit r1) = j /\ (j = [] \/ exists c, j = [c] /\ (N.eqb c 106 || N.eqb c 74)%bool = true)).
    { destruct (snd (span is_digit r1)) as [|j [|]]; [exists []; split; [reflexivity|left; reflexivity]| |discriminate].
      destruct (N.eqb j 106 || N.eqb j 74)%bool eqn:J; [|discriminate]. exists [j]. split; [reflexivity|right; exists j; auto]. }
    destruct Tl as (j & Ej & J). rewrite Ej in Sp.
    assert (R1 : forall a2, lex (LNum a2) (r1 ++ rest) = TNum (a2 ++ r1) :: lex LIdle rest).
    { intros a2. rewrite Sp, <- app_assoc, (lex_num_word _ _ _ (forallb_digit_word _ Dg)).
      pose proof (nonempty_ne _ NE) as ND. destruct J as [->|(d & -> & Jd)].
      - cbn [app]. rewrite app_nil_r. apply lex_num_end; [|exact S].
        destruct (fst (span is_digit r1)) as [|d w] eqn:Ew; [congruence|]. rewrite last_app_cons. apply digit_not_exp. apply last_digits; [discriminate|exact Dg].
      - apply jay_word in Jd as [J1 J2]. rewrite (lex_num_word [d]); [|cbn [forallb]; rewrite J1; reflexivity].
        rewrite lex_num_end; [f_equal; rewrite <- !app_assoc; reflexivity| |exact S].
        rewrite last_app_cons. exact J2. }
    assert (First : lex (LNum acc) ((c :: r) ++ rest) = lex (LNum (acc ++ [c])) (r ++ rest)).
    { change (lex (LNum acc) ((c :: r) ++ rest)) with (fst (lstep (LNum acc) c) ++ lex (snd (lstep (LNum acc) c)) (r ++ rest)).
      cbn [lstep]. unfold more_number at 1 2. rewrite (exp_word _ E). reflexivity. }
    rewrite First. subst r1. destruct r as [|d r']; [discriminate NE|]. destruct (is_sign d) eqn:Sd.
    + assert (Second : lex (LNum (acc ++ [c])) ((d :: r') ++ rest) = lex (LNum ((acc ++ [c]) ++ [d])) (r' ++ rest)).
      { change (lex (LNum (acc ++ [c])) ((d :: r') ++ rest)) with (fst (lstep (LNum (acc ++ [c])) d) ++ lex (snd (lstep (LNum (acc ++ [c])) d)) (r' ++ rest)).
        cbn [lstep]. unfold more_number at 1 2. rewrite Sd, last_app_cons. cbn [last]. rewrite E, !orb_true_r. reflexivity. }
      rewrite Second, R1, <- !app_assoc. reflexivity.
    + rewrite (R1 (acc ++ [c])), <- app_assoc. reflexivity.
  - destruct (N.eqb c 106 || N.eqb c 74)%bool eqn:J; [|discriminate]. destruct r; [|discriminate].
    apply jay_word in J as [J1 J2]. rewrite (lex_num_word [c]); [|cbn [forallb]; rewrite J1; reflexivity].
    apply lex_num_end; [|exact S]. rewrite last_app_cons. exact J2.
Qed.
Lemma digit_idle c : is_digit c = true -> idle c = ([], LNum [c]).
Proof.
  intros H. assert (N.leb 48 c = true /\ N.leb c 57 = true) as [A B] by (apply andb_true_iff; exact H).
  apply N.leb_le in A, B. unfold idle.
  assert (N.eqb c 32 = false) as -> by (apply N.eqb_neq; lia).
  assert (is_letter c = false) as ->.
  { unfold is_letter. apply orb_false_iff. split; apply andb_false_iff; left; apply N.leb_gt; lia. }
  assert (N.eqb c 95 = false) as -> by (apply N.eqb_neq; lia). rewrite H. reflexivity.
Qed.
Lemma Lx_number s : py_number s = true -> Lx s [TNum s].
Proof.
  unfold py_number. intros H rest S. destruct (span_split is_digit s) as [Sp Dg].
  set (i := fst (span is_digit s)) in *. set (r := snd (span is_digit s)) in *. rewrite Sp. clearbody i r. subst s.
  assert (Start : forall more, i <> [] -> lex LIdle (i ++ more) = lex (LNum i) more).
  { intros more N. destruct i as [|c w]; [congruence|]. cbn [forallb] in Dg. apply andb_true_iff in Dg as [D1 D2].
    cbn [app lex lstep]. rewrite (digit_idle _ D1). cbn [fst snd app]. rewrite (lex_num_word _ _ _ (forallb_digit_word _ D2)). reflexivity. }
  assert (LastI : i <> [] -> is_exp (last i 0%N) = false).
  { intros N. apply digit_not_exp, last_digits; assumption. }
  assert (Plain : nonempty i = true -> (exists b, num_tail r = Some b) -> lex LIdle ((i ++ r) ++ rest) = [TNum (i ++ r)] ++ lex LIdle rest).
  { intros N [b T]. apply nonempty_ne in N. rewrite <- app_assoc, (Start _ N). rewrite (lex_num_tail r b); auto. }
  assert (C1 : (exists r', r = 46%N :: r') \/ N.eqb (hd 0%N r) 46 = false).
  { destruct (N.eqb (hd 0%N r) 46) eqn:E; [left|right; reflexivity]. apply N.eqb_eq in E. destruct r as [|c r']; [discriminate E|]. cbn [hd] in E. subst c. eauto. }
  destruct C1 as [[r' ->]|C1].
  - cbn [hd tail] in H. rewrite N.eqb_refl in H. destruct (span_split is_digit r') as [Sp2 Dg2].
    set (f := fst (span is_digit r')) in *. set (r2 := snd (span is_digit r')) in *. clearbody f r2. subst r'.
    apply andb_true_iff in H as [N T]. destruct (num_tail r2) as [b|] eqn:T2; [|discriminate]. clear T.
    destruct i as [|c w].
    + cbn [nonempty orb] in N. destruct f as [|d f]; [discriminate|]. cbn [forallb] in Dg2. apply andb_true_iff in Dg2 as [D1 D2].
      cbn [app]. change (lex LIdle (46%N :: d :: (f ++ r2) ++ rest)) with (lex LDot (d :: (f ++ r2) ++ rest)). cbn [lex lstep]. rewrite D1. cbn [fst snd app].
      rewrite <- app_assoc, (lex_num_word _ _ _ (forallb_digit_word _ D2)).
      rewrite (lex_num_tail r2 b); [reflexivity|exact T2| |exact S].
      cbn [app]. change (46%N :: d :: f) with ([46%N] ++ d :: f). rewrite last_app_cons. apply digit_not_exp, last_digits; [discriminate|cbn [forallb]; rewrite D1; exact D2].
    + assert (Pt : more_number (c :: w) 46 = true) by (unfold more_number; rewrite N.eqb_refl, orb_true_r; reflexivity).
      assert (NI : c :: w <> []) by discriminate. remember (c :: w) as i eqn:Ei. clear Ei.
      rewrite <- app_assoc, (Start _ NI). cbn [app lex lstep]. rewrite Pt. cbn [fst snd app].
      rewrite <- app_assoc, (lex_num_word _ _ _ (forallb_digit_word _ Dg2)).
      rewrite (lex_num_tail r2 b); [f_equal; f_equal; rewrite <- !app_assoc; reflexivity|exact T2| |exact S].
      destruct f as [|d f].
      * rewrite app_nil_r. rewrite last_app_cons. reflexivity.
      * rewrite last_app_cons. apply digit_not_exp, last_digits; [discriminate|exact Dg2].
  - rewrite C1 in H. apply andb_true_iff in H as [N T]. apply Plain; [exact N|]. destruct (num_tail r) as [b|]; [eauto|discriminate].
Qed.
