(** The regular expression finds the longest numeral; its groups. *)
From Coq Require Import String Ascii List NArith ZArith QArith Bool Lia Setoid.
From Verif Require Import PyBase PyFacts RegexModel RegexFacts NumberModel NumberSpec NumberProofs.
Import ListNotations.
Open Scope nat_scope.
Local Opaque N.add.

Lemma span_digits_span s : span_digits s = span is_digit s.
Proof. induction s as [|c s IH]; [reflexivity|]. cbn [span_digits span]. now rewrite IH. Qed.
Lemma span_nodigit s : nodigit (snd (span is_digit s)).
Proof. destruct (snd (span is_digit s)) as [|c t] eqn:E; [exact I|]. now apply span_stop in E. Qed.
Lemma span_text s : exists ds, fst (span is_digit s) = dtext ds /\ all_digits ds.
Proof. apply digits_dtext, span_all. Qed.
Lemma span_dtext ds t : all_digits ds -> nodigit t -> span is_digit (dtext ds ++ t) = (dtext ds, t).
Proof. intros H Ht. apply span_prefix; [now apply dtext_digits|]. destruct t; [exact I|exact Ht]. Qed.

Lemma hd_map {A B} (f : A -> B) l : hd_error (map f l) = option_map f (hd_error l).
Proof. now destruct l. Qed.
Lemma hd_app {A} (a b : list A) : hd_error (a ++ b) = match hd_error a with Some x => Some x | None => hd_error b end.
Proof. now destruct a. Qed.
Lemma hd_flat {A B} (f : A -> list B) l x y : hd_error l = Some x -> hd_error (f x) = Some y -> hd_error (flat_map f l) = Some y.
Proof. destruct l as [|z l]; [discriminate|]. intros H. injection H as ->. cbn [flat_map]. intros H. now rewrite hd_app, H. Qed.
Lemma hd_none {A} (l : list A) : hd_error l = None <-> l = [].
Proof. destruct l; cbn; split; congruence. Qed.

(** One or more digits. *)
Lemma digits_hd s : hd_error (rmatch digits s) = match span is_digit s with ([], _) => None | x => Some x end.
Proof.
  unfold digits, rplus, digit. rewrite rmatch_seq_chr. destruct s as [|c s]; [reflexivity|]. cbn [span]. destruct (is_digit c); [|reflexivity].
  rewrite hd_map, rmatch_star_chr, chr_star_hd. destruct (span is_digit s) as [a b]. reflexivity.
Qed.
Lemma digits_seq b s : (forall c t, is_digit c = true -> rmatch b (c :: t) = []) ->
  rmatch (RSeq digits b) s = match span is_digit s with ([], _) => [] | (ds, r) => map (pre ds) (rmatch b r) end.
Proof.
  intros Hb. unfold digits, rplus, digit. rewrite rmatch_seq_assoc, rmatch_seq_chr. destruct s as [|c s]; [reflexivity|]. cbn [span]. destruct (is_digit c); [|reflexivity].
  rewrite seq_star_chr by exact Hb. destruct (span is_digit s) as [x y]. cbn [fst snd]. now rewrite pre_pre.
Qed.

(** The part before the s.u. *)
Definition scan_base (s : str) : option (str * option str * str) :=
  let (ip, r1) := span is_digit s in
  match r1 with
  | c :: r2 =>
      if (c =? 46)%N then
        match span is_digit r2 with
        | ([], _) => match ip with [] => None | _ => Some (ip ++ [46%N], None, r2) end
        | (fp, r3) => Some ((ip ++ [46%N]) ++ fp, Some fp, r3)
        end
      else match ip with [] => None | _ => Some (ip, None, c :: r2) end
  | [] => match ip with [] => None | _ => Some (ip, None, []) end
  end.
Lemma is_chr c s : rmatch (is c) s = match s with d :: s' => if (c =? d)%N then [([d], s')] else [] | [] => [] end.
Proof. reflexivity. Qed.
Lemma dot_digit c t : is_digit c = true -> rmatch (is 46) (c :: t) = [].
Proof. intros H. rewrite is_chr. destruct (46 =? c)%N eqn:E; [|reflexivity]. apply N.eqb_eq in E. subst c. discriminate. Qed.
Lemma unsigned_hd s : hd_error (unsigned s) = scan_base s.
Proof.
  unfold unsigned, scan_base. rewrite hd_app. unfold digit. rewrite seq_star_chr by apply dot_digit.
  assert (hd_error (map (fun cr : str * str => (fst cr, @None str, snd cr)) (rmatch (RSeq digits (ropt (is 46))) s)) =
          match span is_digit s with
          | ([], _) => None
          | (ip, c :: r) => if (c =? 46)%N then Some (ip ++ [46%N], None, r) else Some (ip, None, c :: r)
          | (ip, []) => Some (ip, None, [])
          end) as R.
  { rewrite hd_map. pose proof (digits_hd s) as H. destruct (span is_digit s) as [ip r] eqn:E. destruct ip as [|c0 ip].
    - rewrite rmatch_seq. apply hd_none in H. now rewrite H.
    - rewrite rmatch_seq. erewrite hd_flat; [|exact H|]; cycle 1.
      + cbn [fst snd ropt rmatch]. rewrite hd_map, hd_app. instantiate (1 := match r with [] => (c0 :: ip, []) | c :: r' => if (c =? 46)%N then ((c0 :: ip) ++ [46%N], r') else (c0 :: ip, c :: r') end).
        rewrite is_chr. destruct r as [|c r]; [cbn; unfold pre; cbn; now rewrite app_nil_r|].
        rewrite N.eqb_sym. destruct (c =? 46)%N eqn:Ec; [apply N.eqb_eq in Ec; subst c; reflexivity|]. cbn. unfold pre. cbn. now rewrite app_nil_r.
      + destruct r as [|c r]; [reflexivity|]. now destruct (c =? 46)%N. }
  unfold str in *. rewrite R. clear R. destruct (span is_digit s) as [ip r]. cbn [fst snd]. rewrite is_chr.
  destruct r as [|c r]; [destruct ip; reflexivity|]. rewrite N.eqb_sym. destruct (c =? 46)%N eqn:Ec.
  - apply N.eqb_eq in Ec. subst c. cbn [map flat_map pre fst snd]. rewrite app_nil_r, hd_map, digits_hd.
    destruct (span is_digit r) as [[|f fp] r3]; cbn [option_map]; destruct ip; reflexivity.
  - cbn [map flat_map hd_error]. destruct ip; reflexivity.
Qed.

(** The s.u. and the exponent. *)
Definition scan_su (s : str) : option str * str :=
  match s with
  | c :: r => if (c =? 40)%N then
                match span is_digit r with
                | (d :: ds, c2 :: r2) => if (c2 =? 41)%N then (Some (40%N :: (d :: ds) ++ [41%N]), r2) else (None, s)
                | _ => (None, s)
                end
              else (None, s)
  | [] => (None, s)
  end.
Lemma su_hd s : hd_error (opt_group esd_re s) = Some (scan_su s).
Proof.
  unfold opt_group, scan_su. rewrite hd_app, hd_map. unfold esd_re, is. rewrite rmatch_seq_chr. destruct s as [|c r]; [reflexivity|].
  rewrite N.eqb_sym. destruct (c =? 40)%N eqn:Ec; [|reflexivity]. apply N.eqb_eq in Ec. subst c.
  rewrite digits_seq.
  - destruct (span is_digit r) as [[|d ds] [|c2 r2]]; [reflexivity..|]. cbn [rmatch]. rewrite N.eqb_sym. destruct (c2 =? 41)%N eqn:E2; [|reflexivity].
    apply N.eqb_eq in E2. subst c2. reflexivity.
  - intros c t H. cbn [rmatch]. destruct (41 =? c)%N eqn:E; [|reflexivity]. apply N.eqb_eq in E. subst c. discriminate.
Qed.
Definition is_letter (c : N) : bool := existsb (N.eqb c) [101; 69; 100; 68]%N.
Definition scan_exp (s : str) : option str * str :=
  match s with
  | c :: r => if is_letter c then
                match r with
                | g :: r2 => if ((g =? 43) || (g =? 45))%N then
                    match span is_digit r2 with ([], _) => (None, s) | (ds, r3) => (Some (c :: g :: ds), r3) end
                  else match span is_digit r with ([], _) => (None, s) | (ds, r3) => (Some (c :: ds), r3) end
                | [] => (None, s)
                end
              else (None, s)
  | [] => (None, s)
  end.
Lemma exp_hd s : hd_error (opt_group exp_re s) = Some (scan_exp s).
Proof.
  unfold opt_group, scan_exp. rewrite hd_app, hd_map. unfold exp_re, one_of. rewrite rmatch_seq_chr. destruct s as [|c r]; [reflexivity|].
  fold (is_letter c). destruct (is_letter c); [|reflexivity]. rewrite hd_map. unfold ropt. rewrite rmatch_seq_alt, rmatch_seq_chr, rmatch_seq_eps, hd_app.
  destruct r as [|g r]; [reflexivity|]. cbn [existsb]. rewrite orb_false_r. destruct ((g =? 43) || (g =? 45))%N eqn:Eg.
  - rewrite hd_map, !digits_hd. assert (is_digit g = false) as Dg.
    { apply orb_true_iff in Eg. destruct Eg as [Eg|Eg]; apply N.eqb_eq in Eg; subst g; reflexivity. }
    cbn [span]. rewrite Dg. destruct (span is_digit r) as [[|d ds] r3]; reflexivity.
  - cbn [hd_error]. rewrite digits_hd. destruct (span is_digit (g :: r)) as [[|d ds] r3]; reflexivity.
Qed.

(** The groups of a numeral. *)
Definition dad_of (n : numeral) : option str := match n_frac n with Some (d :: f) => Some (dtext (d :: f)) | _ => None end.
Definition groups (n : numeral) : num_groups :=
  GNum (base_text n) (dad_of n) (option_map (fun _ => su_text n) (n_su n)) (option_map (fun _ => exp_text n) (n_exp n)).

Lemma scan_exp_ok s : exists x rest, scan_exp s = (option_map (fun _ => exp_text (mkNum false [] None None x)) x, rest)
  /\ (forall l g d, x = Some (l, g, d) -> In l [101; 69; 100; 68]%N /\ all_digits d /\ d <> [])
  /\ s = exp_text (mkNum false [] None None x) ++ rest
  /\ (x <> None -> nodigit rest) /\ (x = None -> ~ exp_like rest).
Proof.
  assert (forall s, scan_exp s = (None, s) -> ~ exp_like s) as No.
  { clear s. intros s H (n & rest & P & Ne & ->). unfold exp_text in H. destruct (n_exp n) as [[[l g] d]|] eqn:Ee; [|now elim Ne].
    destruct (p_exp _ P _ _ _ Ee) as (Hl & Hd & Nd). cbn [app scan_exp] in H.
    assert (is_letter l = true) as El by (destruct Hl as [<-|[<-|[<-|[<-|[]]]]]; reflexivity). rewrite El in H.
    assert (exists d0 ds r3, span is_digit (dtext d ++ rest) = (d0 :: ds, r3)) as (d0 & ds & r3 & E).
    { clear H. destruct d as [|e d]; [now elim Nd|]. inversion Hd; subst. cbn [dtext map app span]. rewrite digit_text by assumption.
      destruct (span is_digit (map _ _ ++ rest)) as [a b]. exists (48 + e)%N, a, b. reflexivity. }
    rewrite <- app_assoc in H. destruct g as [[|]|]; cbn [app] in H.
    - cbn [N.eqb orb] in H. replace ((45 =? 43) || (45 =? 45))%N with true in H by reflexivity. rewrite E in H. discriminate.
    - replace ((43 =? 43) || (43 =? 45))%N with true in H by reflexivity. rewrite E in H. discriminate.
    - destruct (dtext d ++ rest) as [|c t] eqn:Et; [discriminate|].
      assert (is_digit c = true) as Dc by (cbn [span] in E; destruct (is_digit c); [reflexivity|discriminate]).
      assert (((c =? 43) || (c =? 45))%N = false) as Ec.
      { apply orb_false_iff. split; apply N.eqb_neq; intros ->; discriminate. }
      rewrite Ec, E in H. discriminate. }
  destruct (scan_exp s) as [[t|] rest] eqn:E.
  - unfold scan_exp in E. destruct s as [|c r]; [discriminate|]. destruct (is_letter c) eqn:El; [|discriminate].
    assert (In c [101; 69; 100; 68]%N) as Hc.
    { unfold is_letter in El. apply existsb_exists in El. destruct El as (y & Hy & Ey). apply N.eqb_eq in Ey. now subst y. }
    destruct r as [|g r2]; [discriminate|]. destruct ((g =? 43) || (g =? 45))%N eqn:Eg.
    + pose proof (span_app is_digit r2) as Hs. pose proof (span_nodigit r2) as Hn. destruct (span_text r2) as (d & Hd & Ad).
      destruct (span is_digit r2) as [ds r3]. cbn [fst snd] in *. subst ds. destruct d as [|d0 d]; [discriminate|].
      assert ((Some (c :: g :: dtext (d0 :: d)), r3) = (Some t, rest)) as E' by exact E. injection E' as <- <-. clear E.
      exists (Some (c, Some (g =? 45)%N, d0 :: d)), r3.
      assert (exp_text (mkNum false [] None None (Some (c, Some (g =? 45)%N, d0 :: d))) = c :: g :: dtext (d0 :: d)) as T.
      { unfold exp_text. cbn [n_exp]. apply orb_true_iff in Eg. destruct Eg as [Eg|Eg]; apply N.eqb_eq in Eg; subst g; reflexivity. }
      rewrite T. split; [reflexivity|]. split; [|split; [cbn [app]; now rewrite Hs|split; [now intros _|discriminate]]].
      intros l g0 d1 E1. injection E1 as <- <- <-. split; [exact Hc|]. split; [exact Ad|discriminate].
    + pose proof (span_app is_digit (g :: r2)) as Hs. pose proof (span_nodigit (g :: r2)) as Hn. destruct (span_text (g :: r2)) as (d & Hd & Ad).
      destruct (span is_digit (g :: r2)) as [ds r3]. cbn [fst snd] in *. subst ds. destruct d as [|d0 d]; [discriminate|].
      assert ((Some (c :: dtext (d0 :: d)), r3) = (Some t, rest)) as E' by exact E. injection E' as <- <-. clear E.
      exists (Some (c, None, d0 :: d)), r3.
      split; [reflexivity|]. split; [|split; [unfold exp_text; cbn [n_exp app]; now rewrite Hs|split; [now intros _|discriminate]]].
      intros l g0 d1 E1. injection E1 as <- <- <-. split; [exact Hc|]. split; [exact Ad|discriminate].
  - assert (rest = s) as ->.
    { unfold scan_exp in E. destruct s as [|c r]; [now injection E|]. destruct (is_letter c); [|now injection E].
      destruct r as [|g r2]; [now injection E|]. destruct ((g =? 43) || (g =? 45))%N.
      - destruct (span is_digit r2) as [[|d ds] r3]; [now injection E|discriminate].
      - destruct (span is_digit (g :: r2)) as [[|d ds] r3]; [now injection E|discriminate]. }
    exists None, s. split; [reflexivity|]. split; [discriminate|]. split; [reflexivity|]. split; [intros H; now elim H|]. intros _. now apply No.
Qed.
Lemma scan_su_ok s : exists e rest, scan_su s = (option_map (fun _ => su_text (mkNum false [] None e None)) e, rest)
  /\ (forall d, e = Some d -> all_digits d /\ d <> [])
  /\ s = su_text (mkNum false [] None e None) ++ rest
  /\ (e = None -> ~ su_like rest).
Proof.
  assert (forall s, scan_su s = (None, s) -> ~ su_like s) as No.
  { clear s. intros s H (d & rest & Hd & Nd & ->). cbn [scan_su] in H. replace (40 =? 40)%N with true in H by reflexivity.
    rewrite span_dtext in H by (try exact Hd; reflexivity). destruct d as [|d0 d]; [now elim Nd|]. cbn [dtext map] in H. replace (41 =? 41)%N with true in H by reflexivity. discriminate. }
  destruct (scan_su s) as [[t|] rest] eqn:E.
  - unfold scan_su in E. destruct s as [|c r]; [discriminate|]. destruct (c =? 40)%N eqn:Ec; [|discriminate]. apply N.eqb_eq in Ec. subst c.
    pose proof (span_app is_digit r) as Hs. destruct (span_text r) as (d & Hd & Ad).
    destruct (span is_digit r) as [ds r3]. cbn [fst snd] in *. subst ds. destruct d as [|d0 d]; [discriminate|].
    destruct r3 as [|c2 r2]; [discriminate|]. change (dtext (d0 :: d)) with ((48 + d0)%N :: dtext d) in E. cbv iota in E. destruct (c2 =? 41)%N eqn:E2; [|discriminate]. apply N.eqb_eq in E2. subst c2.
    injection E as <- <-. exists (Some (d0 :: d)), r2. split; [reflexivity|]. split; [intros d1 E1; injection E1 as <-; split; [exact Ad|discriminate]|].
    split; [|discriminate]. unfold su_text. cbn [n_su app]. rewrite <- Hs. now rewrite <- app_assoc.
  - assert (rest = s) as ->.
    { unfold scan_su in E. destruct s as [|c r]; [now injection E|]. destruct (c =? 40)%N; [|now injection E].
      destruct (span is_digit r) as [[|d ds] [|c2 r2]]; try now injection E. destruct (c2 =? 41)%N; [discriminate|now injection E]. }
    exists None, s. split; [reflexivity|]. split; [discriminate|]. split; [reflexivity|]. intros _. now apply No.
Qed.
Lemma scan_base_ok s : match scan_base s with
  | Some (t, dad, rest) => exists i f, let n := mkNum false i f None None in
      proper n /\ t = base_text n /\ dad = dad_of n /\ s = base_text n ++ rest /\ nodigit rest /\ (f = None -> ~ starts 46 rest)
  | None => forall n rest, proper n -> n_neg n = false -> s <> text n ++ rest
  end.
Proof.
  unfold scan_base. pose proof (span_app is_digit s) as Hs. pose proof (span_nodigit s) as Hn. destruct (span_text s) as (i & Hi & Ai).
  destruct (span is_digit s) as [ip r1] eqn:Esp. cbn [fst snd] in *. subst ip.
  assert (forall i f, all_digits i -> (forall g, f = Some g -> all_digits g) -> (i <> [] \/ exists g, f = Some g /\ g <> []) -> proper (mkNum false i f None None)) as Pr.
  { intros i0 f0 H1 H2 H3. split; cbn; [exact H1|exact H2|exact H3|discriminate|discriminate]. }
  assert (forall n rest, proper n -> n_neg n = false -> i = [] -> s = text n ++ rest -> exists f, n_frac n = Some f /\ f <> [] /\ r1 = 46%N :: dtext f ++ tail n rest) as Nd.
  { intros n rest P Hneg -> E. destruct (n_int n) as [|d ds] eqn:Ei.
    - destruct (p_some _ P) as [H|(f & Ef & Nf)]; [now elim H|]. exists f. split; [exact Ef|]. split; [exact Nf|].
      cbn [dtext map app] in Hs. rewrite Hs, E. unfold text, base_text, tail. rewrite Hneg, Ei, Ef. cbn [app dtext map]. now rewrite <- !app_assoc.
    - exfalso. pose proof (p_int _ P) as Hd. rewrite Ei in Hd. inversion Hd; subst. rewrite E in Esp. unfold text, base_text in Esp. rewrite Hneg, Ei in Esp. cbn [app dtext map span] in Esp.
      rewrite digit_text in Esp by assumption. destruct (span is_digit _) as [x y]. cbn in Esp. discriminate. }
  destruct r1 as [|c r2].
  - destruct i as [|d i]; cbn [dtext map].
    + intros n rest P Hneg E. destruct (Nd n rest P Hneg eq_refl E) as (f & _ & _ & H). discriminate.
    + exists (d :: i), None. cbv zeta. split; [apply Pr; [exact Ai|discriminate|left; discriminate]|]. unfold base_text, dad_of. cbn [n_neg n_int n_frac app].
      rewrite !app_nil_r. split; [reflexivity|]. split; [reflexivity|]. split; [now rewrite <- Hs, app_nil_r|]. split; [exact I|]. intros _ [r H]. discriminate.
  - destruct (c =? 46)%N eqn:Ec.
    + apply N.eqb_eq in Ec. subst c. pose proof (span_app is_digit r2) as Hs2. pose proof (span_nodigit r2) as Hn2. destruct (span_text r2) as (f & Hf & Af).
      destruct (span is_digit r2) as [fp r3] eqn:Esp2. cbn [fst snd] in *. subst fp. destruct f as [|f0 f]; cbn [dtext map].
      * cbn [dtext map app] in Hs2. subst r3. destruct i as [|d i]; cbn [dtext map].
        -- intros n rest P Hneg E. destruct (Nd n rest P Hneg eq_refl E) as (f & Ef & Nf & H). injection H as H. rewrite H in Hn2. destruct f as [|f0 f]; [now elim Nf|].
           pose proof (p_frac _ P _ Ef) as Hf2. inversion Hf2; subst. cbn [dtext map app nodigit] in Hn2. rewrite digit_text in Hn2 by assumption. discriminate.
        -- exists (d :: i), (Some []). cbv zeta. split; [apply Pr; [exact Ai|intros g Eg; injection Eg as <-; constructor|left; discriminate]|]. unfold base_text, dad_of. cbn [n_neg n_int n_frac app].
           split; [reflexivity|]. split; [reflexivity|]. split; [rewrite <- Hs; cbn [dtext map app]; now rewrite <- app_assoc|]. split; [exact Hn2|discriminate].
      * exists i, (Some (f0 :: f)). cbv zeta. split; [apply Pr; [exact Ai|intros g Eg; injection Eg as <-; exact Af|right; eexists; split; [reflexivity|discriminate]]|]. unfold base_text, dad_of. cbn [n_neg n_int n_frac app].
        split; [now rewrite <- app_assoc|]. split; [reflexivity|]. split; [rewrite <- Hs, <- Hs2; now rewrite <- app_assoc|]. split; [exact Hn2|discriminate].
    + apply N.eqb_neq in Ec. destruct i as [|d i]; cbn [dtext map].
      * intros n rest P Hneg E. destruct (Nd n rest P Hneg eq_refl E) as (f & _ & _ & H). injection H as H _. now elim Ec.
      * exists (d :: i), None. cbv zeta. split; [apply Pr; [exact Ai|discriminate|left; discriminate]|]. unfold base_text, dad_of. cbn [n_neg n_int n_frac app].
        rewrite !app_nil_r. split; [reflexivity|]. split; [reflexivity|]. split; [now rewrite <- Hs|]. split; [exact Hn|]. intros _ [r H]. injection H as H _. now elim Ec.
Qed.

Lemma minus_hd s : rmatch (ropt (is 45)) s = match s with c :: s' => if (c =? 45)%N then [([45%N], s'); ([], s)] else [([], s)] | [] => [([], s)] end.
Proof.
  unfold ropt. cbn [rmatch]. rewrite is_chr. destruct s as [|c s]; [reflexivity|]. rewrite N.eqb_sym. destruct (c =? 45)%N eqn:E; [apply N.eqb_eq in E; subst c; reflexivity|reflexivity].
Qed.
Definition after_sign (sg : str * str) : list num_groups :=
  flat_map (fun un => flat_map (fun e => map (fun x =>
      GNum (fst sg ++ fst (fst un)) (snd (fst un)) (fst e) (fst x))
    (opt_group exp_re (snd e))) (opt_group esd_re (snd un))) (unsigned (snd sg)).
Lemma after_sign_hd g s : hd_error (after_sign (g, s)) =
  match scan_base s with
  | None => None
  | Some (t, dad, r) => let (su, r2) := scan_su r in Some (GNum (g ++ t) dad su (fst (scan_exp r2)))
  end.
Proof.
  unfold after_sign. cbn [fst snd]. pose proof (unsigned_hd s) as H. destruct (scan_base s) as [[[t dad] r]|].
  - destruct (scan_su r) as [su r2] eqn:Es. eapply hd_flat; [exact H|]. cbn [fst snd]. eapply hd_flat; [rewrite su_hd, Es; reflexivity|]. cbn [fst snd]. rewrite hd_map, exp_hd. reflexivity.
  - apply hd_none in H. now rewrite H.
Qed.

(** The match of a text without a minus sign. *)
Lemma after_sign_ok (neg : bool) s : match hd_error (after_sign ((if neg then [45%N] else []) : str, s)) with
  | Some g => exists n rest, proper n /\ n_neg n = neg /\ (if neg then [45%N] else []) ++ s = text n ++ rest /\ stops n rest /\ g = groups n
  | None => forall n rest, proper n -> n_neg n = neg -> (if neg then [45%N] else []) ++ s <> text n ++ rest
  end.
Proof.
  rewrite after_sign_hd. pose proof (scan_base_ok s) as B. destruct (scan_base s) as [[[t dad] r]|].
  - destruct B as (i & f & P & -> & -> & Es & Dr & Hd). destruct (scan_su_ok r) as (e & r2 & -> & Pe & Er & Ne).
    destruct (scan_exp_ok r2) as (x & r3 & -> & Px & Er2 & Dx & Nx). cbn [fst].
    exists (mkNum neg i f e x), r3. split; [|split; [reflexivity|split; [|split]]].
    + split; cbn; [exact (p_int _ P)|exact (p_frac _ P)|exact (p_some _ P)|exact Pe|exact Px].
    + unfold text, base_text. cbn [n_neg n_int n_frac]. rewrite Es, Er, Er2. unfold base_text. cbn [n_neg n_int n_frac app].
      unfold su_text, exp_text. cbn [n_su n_exp]. now rewrite <- !app_assoc.
    + split; cbn [n_exp n_su n_frac].
      * exact Dx.
      * exact Nx.
      * intros Ex Ee. subst x e. cbn [su_text exp_text n_su n_exp app] in Er, Er2. subst r2. rewrite <- Er2. now apply Ne.
      * intros Ex Ee. subst x e. cbn [su_text exp_text n_su n_exp app] in Er, Er2. congruence.
      * intros Ex Ee Ef. subst x e. cbn [su_text exp_text n_su n_exp app] in Er, Er2. rewrite <- Er2, <- Er. now apply Hd.
    + unfold groups, dad_of, base_text, su_text, exp_text. cbn [n_neg n_int n_frac n_su n_exp app]. destruct e, x; reflexivity.
  - intros n rest Pn Hneg E. destruct neg; cbn [app] in E.
    + destruct n as [ng i f e x]. cbn in Hneg. subst ng.
      assert (s = text (mkNum false i f e x) ++ rest) as E' by (unfold text, base_text in *; cbn [n_neg n_int n_frac app] in *; injection E as E; exact E).
      refine (B (mkNum false i f e x) rest _ eq_refl E'). destruct Pn as [A1 A2 A3 A4 A5]. now split.
    + now apply (B n rest Pn Hneg).
Qed.

Lemma unsigned_ok s : match hd_error (after_sign ([], s)) with
  | Some g => exists n rest, proper n /\ n_neg n = false /\ s = text n ++ rest /\ stops n rest /\ g = groups n
  | None => forall n rest, proper n -> n_neg n = false -> s <> text n ++ rest
  end.
Proof. exact (after_sign_ok false s). Qed.
Lemma negative_ok s : match hd_error (after_sign ([45%N], s)) with
  | Some g => exists n rest, proper n /\ n_neg n = true /\ 45%N :: s = text n ++ rest /\ stops n rest /\ g = groups n
  | None => forall n rest, proper n -> n_neg n = true -> 45%N :: s <> text n ++ rest
  end.
Proof. exact (after_sign_ok true s). Qed.

Lemma numb_matches_eq s : numb_matches s = flat_map after_sign (rmatch (ropt (is 45)) s)
  ++ map (fun _ => GNone) (rmatch (is 63) s) ++ map (fun _ => GNone) (rmatch (is 46) s).
Proof. reflexivity. Qed.
Lemma no_match s l : (forall n rest, proper n -> n_neg n = false -> s <> text n ++ rest) ->
  (forall n rest, proper n -> n_neg n = true -> s <> text n ++ rest) -> (forall g, In g l -> g = GNone) ->
  match hd_error l with
  | Some (GNum b d e x) => exists n rest, proper n /\ s = text n ++ rest /\ stops n rest /\ GNum b d e x = groups n
  | _ => no_numeral s
  end.
Proof.
  intros F T Hl. assert (no_numeral s) as N.
  { intros n rest P E. destruct (n_neg n) eqn:En; [now apply (T n rest)|now apply (F n rest)]. }
  destruct l as [|g l]; [exact N|]. cbn [hd_error]. rewrite (Hl g (or_introl eq_refl)). exact N.
Qed.
Theorem match_ok s : match numb_match s with
  | Some (GNum b d e x) => exists n rest, proper n /\ s = text n ++ rest /\ stops n rest /\ GNum b d e x = groups n
  | _ => no_numeral s
  end.
Proof.
  unfold numb_match. rewrite numb_matches_eq, minus_hd. pose proof (unsigned_ok s) as F.
  assert (forall g, In g (map (fun _ : str * str => GNone) (rmatch (is 63) s) ++ map (fun _ => GNone) (rmatch (is 46) s)) -> g = GNone) as Others.
  { intros g H. apply in_app_or in H. destruct H as [H|H]; apply in_map_iff in H; destruct H as (? & H & _); now symmetry. }
  revert Others. generalize (map (fun _ : str * str => GNone) (rmatch (is 63) s) ++ map (fun _ : str * str => GNone) (rmatch (is 46) s)). intros l Others.
  unfold str in *. rewrite hd_app. destruct s as [|c s].
  - cbn [flat_map]. rewrite app_nil_r. destruct (hd_error (after_sign ([], []))) as [g|] eqn:Eh.
    + destruct F as (n & rest & P & _ & E & S & ->). unfold groups. now exists n, rest.
    + apply no_match; [exact F| |exact Others]. intros n rest P Hn E. unfold text, base_text in E. rewrite Hn in E. discriminate.
  - destruct (c =? 45)%N eqn:Ec.
    + apply N.eqb_eq in Ec. subst c. cbn [flat_map]. pose proof (negative_ok s) as T. unfold str in *.
      rewrite hd_app, app_nil_r. destruct (hd_error (after_sign ([45%N], s))) as [g|] eqn:Eh.
      * destruct T as (n & rest & P & _ & E & S & ->). unfold groups. now exists n, rest.
      * destruct (hd_error (after_sign ([], 45%N :: s))) as [g|] eqn:Eh2.
        -- destruct F as (n & rest & P & _ & E & S & ->). unfold groups. now exists n, rest.
        -- now apply no_match.
    + apply N.eqb_neq in Ec. cbn [flat_map]. rewrite app_nil_r. destruct (hd_error (after_sign ([], c :: s))) as [g|] eqn:Eh.
      * destruct F as (n & rest & P & _ & E & S & ->). unfold groups. now exists n, rest.
      * apply no_match; [exact F| |exact Others]. intros n rest P Hn E. unfold text, base_text in E. rewrite Hn in E. cbn in E. injection E as E _. now elim Ec.
Qed.
