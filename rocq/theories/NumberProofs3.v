(** The value read from the groups of a numeral. *)
From Coq Require Import String Ascii List NArith ZArith QArith Qpower Bool Lia Setoid.
From Verif Require Import PyBase PyFacts RegexModel RegexFacts NumberModel NumberSpec NumberProofs NumberProofs2.
Import ListNotations.
Open Scope nat_scope.
Local Opaque N.add Z.mul Z.add Z.pow.

Lemma whole_app a b : whole (a ++ b) = (whole a * 10 ^ Z.of_nat (length b) + whole b)%Z.
Proof.
  induction a as [|d a IH]; cbn [app whole]; [lia|]. rewrite IH, app_length, Nat2Z.inj_add, Z.pow_add_r by lia. ring.
Qed.
Lemma read_from ds a : fold_left (fun a c => (10 * a + (Z.of_N c - 48))%Z) (dtext ds) a = (a * 10 ^ Z.of_nat (length ds) + whole ds)%Z.
Proof.
  revert a. induction ds as [|d ds IH]; intros a; cbn [dtext map fold_left].
  - cbn [length whole]. change (Z.of_nat 0) with 0%Z. rewrite Z.pow_0_r. lia.
  - fold (dtext ds). rewrite IH. cbn [length whole]. rewrite Nat2Z.inj_succ, Z.pow_succ_r by lia. rewrite N2Z.inj_add. change (Z.of_N 48) with 48%Z. ring.
Qed.
Lemma read_whole ds : read_digits (dtext ds) = whole ds.
Proof. unfold read_digits. rewrite read_from. lia. Qed.
Lemma dtext_app a b : dtext (a ++ b) = dtext a ++ dtext b.
Proof. apply map_app. Qed.

Lemma ten_nz : ~ (10 # 1) == 0.
Proof. discriminate. Qed.
Lemma ten_add a b : (ten (a + b) == ten a * ten b)%Q.
Proof. apply Qpower_plus, ten_nz. Qed.
Lemma ten_nat k : (ten (Z.of_nat k) == inject_Z (10 ^ Z.of_nat k))%Q.
Proof. unfold ten. change (10 # 1) with (inject_Z 10). symmetry. apply Zpower_Qpower. lia. Qed.
Lemma ten_inv k : (ten k * ten (- k) == 1)%Q.
Proof. rewrite <- ten_add. replace (k + - k)%Z with 0%Z by lia. reflexivity. Qed.
Lemma ten_power k : ten k = power k.
Proof. reflexivity. Qed.

Lemma take_sign_none s : match s with [] => True | c :: _ => c <> 45%N /\ c <> 43%N end -> take_sign s = (false, s).
Proof. destruct s as [|c s]; [reflexivity|]. intros [A B]. cbn. apply N.eqb_neq in A. apply N.eqb_neq in B. now rewrite A, B. Qed.
Lemma digit_nosign c : is_digit c = true -> c <> 45%N /\ c <> 43%N.
Proof. intros H. split; intros ->; discriminate. Qed.

Lemma int_text_ok (g : option bool) x : all_digits x -> x <> [] ->
  int_text (match g with Some true => [45%N] | Some false => [43%N] | None => [] end ++ dtext x) =
  Ret (match g with Some true => (- whole x)%Z | _ => whole x end).
Proof.
  intros Hx Nx. assert (span_digits (dtext x) = (dtext x, [])) as Sp.
  { rewrite span_digits_span. rewrite <- (app_nil_r (dtext x)) at 1. now apply span_dtext. }
  assert (exists d r, dtext x = d :: r /\ is_digit d = true) as (d & r & Ed & Hd).
  { destruct x as [|d x]; [now elim Nx|]. inversion Hx; subst. exists (48 + d)%N, (dtext x). split; [reflexivity|now apply digit_text]. }
  unfold int_text. destruct g as [[|]|]; cbn [app].
  - cbn [take_sign]. replace (45 =? 45)%N with true by reflexivity. rewrite Sp. rewrite Ed at 1. rewrite read_whole. reflexivity.
  - cbn [take_sign]. replace (43 =? 45)%N with false by reflexivity. replace (43 =? 43)%N with true by reflexivity. rewrite Sp. rewrite Ed at 1. rewrite read_whole. reflexivity.
  - rewrite take_sign_none by (rewrite Ed; now apply digit_nosign). rewrite Sp. rewrite Ed at 1. rewrite read_whole. reflexivity.
Qed.

(** The exponent part as [float] reads it. *)
Definition float_exp (n : numeral) : str := match n_exp n with Some _ => mend_exp (exp_text n) | None => [] end.
Lemma mend_digits ds : all_digits ds -> mend_exp (dtext ds) = dtext ds.
Proof.
  intros H. unfold mend_exp, dtext. rewrite map_map. induction H as [|d ds Hd H IH]; [reflexivity|]. cbn [map]. f_equal; [|exact IH].
  replace ((48 + d =? 100) || (48 + d =? 68))%N with false; [reflexivity|]. symmetry. apply orb_false_iff. split; apply N.eqb_neq; lia.
Qed.
Lemma float_exp_ok n l g x : proper n -> n_exp n = Some (l, g, x) -> exists c,
  ((c =? 101) || (c =? 69))%N = true /\ float_exp n = c :: match g with Some true => [45%N] | Some false => [43%N] | None => [] end ++ dtext x.
Proof.
  intros P E. destruct (p_exp _ P _ _ _ E) as (Hl & Hx & _). unfold float_exp, exp_text. rewrite E. unfold mend_exp. cbn [map]. rewrite map_app.
  change (map _ (dtext x)) with (mend_exp (dtext x)). rewrite mend_digits by exact Hx.
  exists (if ((l =? 100) || (l =? 68))%N then 101%N else l). split; [destruct Hl as [<-|[<-|[<-|[<-|[]]]]]; reflexivity|].
  f_equal. f_equal. destruct g as [[|]|]; reflexivity.
Qed.
Lemma float_tail_ok n neg ds scale : proper n -> all_digits ds -> ds <> [] -> exists q,
  float_tail neg (dtext ds) scale (float_exp n) = Ret q /\ (q == inject_Z (signed neg (whole ds)) * ten (scale + exponent n))%Q.
Proof.
  intros P Hds Nds. unfold float_tail. destruct (dtext ds) as [|c0 r0] eqn:Ed; [apply dtext_nil in Ed; contradiction|]. rewrite <- Ed, read_whole.
  destruct (n_exp n) as [[[l g] x]|] eqn:Ee.
  - destruct (float_exp_ok n l g x P Ee) as (c & Hc & ->). destruct (p_exp _ P _ _ _ Ee) as (_ & Hx & Nx). rewrite Hc, int_text_ok by assumption. cbn [obind].
    eexists. split; [reflexivity|]. unfold exponent. rewrite Ee. destruct g as [[|]|]; reflexivity.
  - unfold float_exp. rewrite Ee. eexists. split; [reflexivity|]. unfold exponent. rewrite Ee, Z.add_0_r. reflexivity.
Qed.
Lemma float_exp_head n : proper n -> match float_exp n with [] => True | c :: _ => is_digit c = false /\ c <> 46%N end.
Proof.
  intros P. destruct (n_exp n) as [[[l g] x]|] eqn:Ee; [|unfold float_exp; rewrite Ee; exact I].
  destruct (float_exp_ok n l g x P Ee) as (c & Hc & ->). apply orb_true_iff in Hc. destruct Hc as [Hc|Hc]; apply N.eqb_eq in Hc; subst c; split; (reflexivity || discriminate).
Qed.
Lemma float_exp_nodigit n : proper n -> nodigit (float_exp n).
Proof. intros P. pose proof (float_exp_head n P) as H. destruct (float_exp n); [exact I|]. apply H. Qed.

Lemma value_eq i f e neg : (inject_Z (signed neg (whole (i ++ f))) * ten (- Z.of_nat (length f) + e) ==
  if neg then - ((inject_Z (whole i) + inject_Z (whole f) * power (- Z.of_nat (length f))) * power e)
  else (inject_Z (whole i) + inject_Z (whole f) * power (- Z.of_nat (length f))) * power e)%Q.
Proof.
  assert (inject_Z (whole (i ++ f)) * ten (- Z.of_nat (length f) + e) ==
    (inject_Z (whole i) + inject_Z (whole f) * power (- Z.of_nat (length f))) * power e)%Q as H.
  { rewrite whole_app, inject_Z_plus, inject_Z_mult, <- ten_nat, ten_add.
    transitivity ((inject_Z (whole i) * (ten (Z.of_nat (length f)) * ten (- Z.of_nat (length f))) + inject_Z (whole f) * ten (- Z.of_nat (length f))) * ten e)%Q; [ring|].
    rewrite ten_inv. unfold ten, power. ring. }
  destruct neg; cbn [signed]; [|exact H]. rewrite inject_Z_opp, <- H. ring.
Qed.
Lemma float_ok n : proper n -> exists q, py_float (base_text n ++ float_exp n) = Ret q /\ (q == number n)%Q.
Proof.
  intros P.
  assert (forall t, take_sign ((if n_neg n then [45%N] else []) ++ (dtext (n_int n) ++ match n_frac n with Some f => 46%N :: dtext f | None => [] end) ++ t)
     = (n_neg n, dtext (n_int n) ++ match n_frac n with Some f => 46%N :: dtext f | None => [] end ++ t)) as Sg.
  { intros t. rewrite <- app_assoc. destruct (n_neg n); [reflexivity|]. cbn [app]. apply take_sign_none.
    destruct (n_int n) as [|d i] eqn:Ei.
    - destruct (p_some _ P) as [H|(f & -> & _)]; [now elim H|]. cbn. split; discriminate.
    - pose proof (p_int _ P) as Hd. rewrite Ei in Hd. inversion Hd; subst. cbn [dtext map app]. apply digit_nosign. now apply digit_text. }
  unfold py_float, base_text. rewrite <- app_assoc. rewrite Sg. clear Sg.
  unfold number, magnitude, frac_digits. destruct (n_frac n) as [f|] eqn:Ef.
  - rewrite span_digits_span, span_dtext; [|exact (p_int _ P)|reflexivity]. cbn [app]. replace (46 =? 46)%N with true by reflexivity.
    rewrite span_digits_span, span_dtext; [|exact (p_frac _ P _ Ef)|now apply float_exp_nodigit].
    rewrite <- dtext_app, dtext_length.
    destruct (float_tail_ok n (n_neg n) (n_int n ++ f) (- Z.of_nat (length f)) P) as (q & -> & Hq).
    + apply Forall_app. split; [exact (p_int _ P)|exact (p_frac _ P _ Ef)].
    + destruct (p_some _ P) as [H|(f' & E & H)]; [destruct (n_int n); [now elim H|discriminate]|]. rewrite Ef in E. injection E as <-. destruct (n_int n); [exact H|discriminate].
    + exists q. split; [reflexivity|]. rewrite Hq. apply value_eq.
  - cbn [app]. rewrite span_digits_span, span_dtext; [|exact (p_int _ P)|now apply float_exp_nodigit].
    assert (n_int n <> []) as Ni by (destruct (p_some _ P) as [H|(f' & E & H)]; [exact H|rewrite Ef in E; discriminate]).
    destruct (float_tail_ok n (n_neg n) (n_int n) 0 P (p_int _ P) Ni) as (q & Eq & Hq).
    exists q. split.
    + pose proof (float_exp_head n P) as Hh. destruct (float_exp n) as [|c r]; [exact Eq|]. destruct Hh as [_ Hc]. apply N.eqb_neq in Hc. rewrite Hc. exact Eq.
    + rewrite Hq. pose proof (value_eq (n_int n) [] (exponent n) (n_neg n)) as V. rewrite app_nil_r in V. exact V.
Qed.
Lemma su_float e : all_digits e -> e <> [] -> exists q, py_float (dtext e) = Ret q /\ (q == inject_Z (whole e))%Q.
Proof.
  intros He Ne. pose (n := mkNum false e None None None).
  assert (proper n) as P by (split; cbn; [exact He|discriminate|now left|discriminate|discriminate]).
  destruct (float_ok n P) as (q & E & Hq). unfold base_text, float_exp in E. cbn [n n_neg n_int n_frac n_exp app] in E. rewrite !app_nil_r in E.
  exists q. split; [exact E|]. rewrite Hq. unfold number, magnitude, exponent, frac_digits. cbn [n n_neg n_int n_frac n_exp whole length]. change (Z.of_nat 0) with 0%Z.
  change (power (- 0)) with 1%Q. change (power 0) with 1%Q. change (inject_Z 0) with 0%Q. ring.
Qed.
Lemma inner_su n e : n_su n = Some e -> inner (su_text n) = dtext e.
Proof. intros E. unfold inner, su_text. rewrite E. cbn [tl]. apply removelast_last. Qed.

Theorem groups_value s n : proper n -> numb_match s = Some (groups n) ->
  exists v e, get_number s = Ret (Some v, e) /\ (v == number n)%Q /\ same e (uncertainty n).
Proof.
  intros P E. unfold get_number. rewrite E. unfold groups.
  destruct (float_ok n P) as (v & Ev & Hv).
  assert (py_float (base_text n ++ match option_map mend_exp (option_map (fun _ => exp_text n) (n_exp n)) with Some x => x | None => [] end) = Ret v) as Ev2.
  { rewrite <- Ev. f_equal. f_equal. unfold float_exp. destruct (n_exp n); reflexivity. }
  unfold str in *. rewrite Ev2. clear Ev2. cbn [obind]. unfold uncertainty. destruct (n_su n) as [e|] eqn:Es; cbn [option_map].
  - rewrite (inner_su _ _ Es). destruct (p_su _ P _ Es) as (He & Ne). destruct (su_float e He Ne) as (q & -> & Hq). cbn [obind].
    set (e1 := match dad_of n with Some d => (q * ten (-1 * Z.of_nat (length d)))%Q | None => q end).
    assert (e1 == inject_Z (whole e) * power (- Z.of_nat (length (frac_digits n))))%Q as He1.
    { unfold e1, dad_of, frac_digits. destruct (n_frac n) as [[|d f]|].
      - rewrite Hq. change (power (- Z.of_nat (@length N []))) with 1%Q. ring.
      - rewrite dtext_length, Hq. replace (-1 * Z.of_nat (length (d :: f)))%Z with (- Z.of_nat (length (d :: f)))%Z by lia. reflexivity.
      - rewrite Hq. change (power (- Z.of_nat (@length N []))) with 1%Q. ring. }
    destruct (n_exp n) as [[[l g] x]|] eqn:Ee; cbn [option_map].
    + assert (mend_exp (exp_text n) = float_exp n) as -> by (unfold float_exp; now rewrite Ee).
      destruct (float_exp_ok n l g x P Ee) as (c & _ & ->). destruct (p_exp _ P _ _ _ Ee) as (_ & Hx & Nx). cbn [tl]. rewrite int_text_ok by assumption. cbn [obind].
      exists v. eexists. split; [reflexivity|]. split; [exact Hv|]. cbn [same]. match goal with |- Qeq (Qmult _ ?b) ?r => change (Qeq (Qmult e1 b) r) end. rewrite He1. unfold exponent. rewrite Ee. destruct g as [[|]|]; reflexivity.
    + exists v. eexists. split; [reflexivity|]. split; [exact Hv|]. cbn [same]. match goal with |- Qeq _ ?r => change (Qeq e1 r) end. rewrite He1. unfold exponent. rewrite Ee. change (power 0) with 1%Q. ring.
  - exists v, None. split; [reflexivity|]. split; [exact Hv|exact I].
Qed.

Theorem number_prefix s :
  (exists n v e, longest n s /\ get_number s = Ret (Some v, e) /\ (v == number n)%Q /\ same e (uncertainty n))
  \/ (no_numeral s /\ get_number s = Ret (None, None)).
Proof.
  pose proof (match_ok s) as M. destruct (numb_match s) as [[b d e x|]|] eqn:E.
  - left. destruct M as (n & rest & P & Es & S & Eg). rewrite Eg in E. destruct (groups_value s n P E) as (v & u & G & Hv & Hu).
    exists n, v, u. split; [|split; [exact G|now split]]. split; [exact P|]. split; [now exists rest|].
    intros n' rest' P' Es'. rewrite Es in Es'. destruct (numerals_cmp n n' rest rest' P P' S Es') as [->|L]; lia.
  - right. split; [exact M|]. unfold get_number. now rewrite E.
  - right. split; [exact M|]. unfold get_number. now rewrite E.
Qed.
Lemma longest_whole n n' : proper n -> longest n' (text n) -> n' = n.
Proof.
  intros P (P' & (rest & E) & L). specialize (L n [] P). rewrite app_nil_r in L. specialize (L eq_refl).
  assert (rest = []) as -> by (rewrite E, app_length in L; destruct rest; [reflexivity|cbn in L; lia]).
  destruct (numerals_cmp n n' [] [] P P' (stops_nil n)) as [->|L']; [now rewrite app_nil_r, <- E|reflexivity|lia].
Qed.
Theorem number_whole n : proper n -> exists v e, get_number (text n) = Ret (Some v, e) /\ (v == number n)%Q /\ same e (uncertainty n).
Proof.
  intros P. destruct (number_prefix (text n)) as [(n' & v & e & L & H)|[N _]].
  - apply (longest_whole n) in L; [|exact P]. subst n'. now exists v, e.
  - exfalso. apply (N n [] P). now rewrite app_nil_r.
Qed.

(** ** float_with_esd *)
Lemma before_clean s t : ~ In 40%N s -> before_bracket (s ++ 40%N :: t) = s.
Proof.
  induction s as [|c s IH]; intros H; [reflexivity|]. cbn [app before_bracket]. destruct (c =? 40)%N eqn:E.
  - exfalso. apply N.eqb_eq in E. apply H. now left.
  - f_equal. apply IH. intros K. apply H. now right.
Qed.
Lemma before_none s : ~ In 40%N s -> before_bracket s = s.
Proof.
  induction s as [|c s IH]; intros H; [reflexivity|]. cbn [before_bracket]. destruct (c =? 40)%N eqn:E.
  - exfalso. apply N.eqb_eq in E. apply H. now left.
  - f_equal. apply IH. intros K. apply H. now right.
Qed.
Lemma dtext_clean ds c : all_digits ds -> is_digit c = false -> ~ In c (dtext ds).
Proof. intros H D K. apply dtext_digits in H. rewrite Forall_forall in H. apply H in K. rewrite K in D. discriminate. Qed.
Lemma base_clean n : proper n -> ~ In 40%N (base_text n).
Proof.
  intros P H. unfold base_text in H. apply in_app_or in H. destruct H as [H|H]; [destruct (n_neg n); [destruct H as [H|[]]; discriminate|destruct H]|].
  apply in_app_or in H. destruct H as [H|H]; [now apply (dtext_clean _ _ (p_int _ P)) in H|].
  destruct (n_frac n) as [f|] eqn:Ef; [|destruct H]. destruct H as [H|H]; [discriminate|]. now apply (dtext_clean _ _ (p_frac _ P _ Ef)) in H.
Qed.
Definition bare (n : numeral) : numeral := mkNum (n_neg n) (n_int n) (n_frac n) None None.
Lemma bare_proper n : proper n -> proper (bare n).
Proof. intros [A B C D E]. split; cbn; [exact A|exact B|exact C|discriminate|discriminate]. Qed.
Theorem float_su n e : proper n -> n_su n = Some e -> exists q, float_with_esd (text n) = Ret q /\ (q == number (bare n))%Q.
Proof.
  intros P E. unfold float_with_esd, text, su_text. rewrite E. cbn [app]. rewrite before_clean by now apply base_clean.
  destruct (float_ok (bare n) (bare_proper n P)) as (q & F & Hq). unfold float_exp in F. cbn [bare n_exp] in F. rewrite app_nil_r in F. now exists q.
Qed.
Theorem float_plain n : proper n -> n_su n = None -> (forall l g x, n_exp n = Some (l, g, x) -> In l [101; 69]%N) ->
  exists q, float_with_esd (text n) = Ret q /\ (q == number n)%Q.
Proof.
  intros P E Hl. unfold float_with_esd, text, su_text. rewrite E. cbn [app].
  assert (exp_text n = float_exp n) as Ex.
  { unfold float_exp. destruct (n_exp n) as [[[l g] x]|] eqn:Ee; [|unfold exp_text; now rewrite Ee].
    unfold exp_text. rewrite Ee. unfold mend_exp. cbn [map]. rewrite map_app. change (map _ (dtext x)) with (mend_exp (dtext x)).
    destruct (p_exp _ P _ _ _ Ee) as (_ & Hx & _). rewrite mend_digits by exact Hx. f_equal; [|f_equal; destruct g as [[|]|]; reflexivity].
    destruct (Hl _ _ _ eq_refl) as [<-|[<-|[]]]; reflexivity. }
  rewrite Ex. rewrite before_none; [now apply float_ok|]. intros H. apply in_app_or in H. destruct H as [H|H]; [now apply base_clean in H|].
  destruct (n_exp n) as [[[l g] x]|] eqn:Ee; [|unfold float_exp in H; rewrite Ee in H; destruct H].
  destruct (float_exp_ok n l g x P Ee) as (c & Hc & F). rewrite F in H. destruct H as [->|H]; [discriminate|]. apply in_app_or in H.
  destruct H as [H|H]; [destruct g as [[|]|]; try destruct H as [H|[]]; try discriminate; destruct H|]. destruct (p_exp _ P _ _ _ Ee) as (_ & Hx & _). now apply (dtext_clean _ _ Hx) in H.
Qed.

(** The longest numeral is one numeral. *)
Lemma numeral_unique s n n' : longest n s -> longest n' s -> n = n'.
Proof.
  intros (P & (r & E) & L) (P' & (r' & E') & L').
  assert (length (text n) = length (text n')) as Hl by (apply Nat.le_antisymm; [now apply (L' n r)|now apply (L n' r')]).
  assert (text n = text n') as Ht.
  { rewrite E in E'. apply (f_equal (firstn (length (text n)))) in E'. rewrite firstn_app, Nat.sub_diag, firstn_O, firstn_all, app_nil_r in E'. rewrite Hl, firstn_app, Nat.sub_diag, firstn_O, firstn_all, app_nil_r in E'. exact E'. }
  symmetry. destruct (numerals_cmp n n' [] [] P P' (stops_nil n)) as [H|H]; [now rewrite !app_nil_r|exact H|lia].
Qed.
