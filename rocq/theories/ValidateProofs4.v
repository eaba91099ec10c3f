(** Type expressions and loop keys. *)
From Coq Require Import String Ascii List NArith ZArith QArith Bool Lia Setoid.
From Verif Require Import PyBase PyFacts StarBlockModel LoopModel LoopSpec LoopProofs RegexModel RegexFacts RegexSpec RegexProofs NumberModel NumberSpec ValidateModel ValidateSpec ValidateProofs ValidateProofs2 ValidateProofs3.
Import ListNotations.
Open Scope nat_scope.

Lemma whole_sound r s : whole_match r s = true -> s = [] \/ lang r s [].
Proof.
  unfold whole_match. pose proof (re_match_lang r s) as H. destruct (re_match r s) as [[c t]|].
  - destruct (str_eqb_spec c s) as [->|]; [|discriminate]. intros _. right. destruct H as [E L].
    assert (t = []) as ->; [|exact L]. apply (f_equal (@length N)) in E. rewrite app_length in E. destruct t; [reflexivity|cbn in E; lia].
  - destruct (str_eqb_spec [] s) as [<-|]; [now left|discriminate].
Qed.
Lemma whole_complete r s : lang r s [] -> (forall c t, s = c ++ t -> lang r c t -> t = []) -> whole_match r s = true.
Proof.
  intros L D. unfold whole_match. pose proof (re_match_lang r s) as H. destruct (re_match r s) as [[c t]|].
  - destruct H as [E Lc]. rewrite (D c t E Lc), app_nil_r in E. subst c. apply str_eqb_refl.
  - elim (H s []); [now rewrite app_nil_r|exact L].
Qed.
(** A class of characters repeated, up to the end of a line. *)
Lemma whole_class p s : whole_match (RSeq (RStar (RChr p)) REol) s = true <-> Forall (fun c => p c = true) s.
Proof.
  assert (forall c t, reps (lang (RChr p)) c t <-> Forall (fun x => p x = true) c) as R.
  { intros c t. split.
    - induction 1 as [t|c1 c2 t (x & -> & H) _ IH]; [constructor|]. cbn [app]. now constructor.
    - induction 1 as [|x c H _ IH]; [constructor|]. apply (reps_cons _ [x] c t); [now exists x|exact IH]. }
  split.
  - intros H. apply whole_sound in H. destruct H as [->|(c1 & c2 & -> & H & [-> _])]; [constructor|]. rewrite app_nil_r. now apply R in H.
  - intros H. unfold whole_match, re_match.
    assert (hd_error (rmatch (RSeq (RStar (RChr p)) REol) s) = Some (s, [])) as ->; [|apply str_eqb_refl].
    rewrite rmatch_seq, rmatch_star_chr. pose proof (chr_star_hd p s) as E. assert (span p s = (s, [])) as Es.
    { clear -H. induction H as [|x s Hx _ IH]; [reflexivity|]. cbn [span]. rewrite Hx, IH. reflexivity. }
    rewrite Es in E. destruct (chr_star p s) as [|y l]; [discriminate|]. injection E as ->. cbn [flat_map fst snd rmatch map app hd_error]. unfold pre. cbn [fst snd]. now rewrite app_nil_r.
Qed.
Theorem type_sound d name v def code r vs x : dic_get d name = Ret def -> tget (d_type_spec d) def = Some (VStr code) -> dget str_eqb code (d_types d) = Some r ->
  held v vs -> (forall a, In a vs -> is_text a = true) -> validate_item_type d name v = Ret x ->
  (x = RTrue -> Forall (fun a => unknown a \/ exists s, a = VStr s /\ (s = [] \/ lang r s [])) vs)
  /\ ((forall s, In (VStr s) vs -> unknown (VStr s) \/ lang r s [] /\ forall c t, s = c ++ t -> lang r c t -> t = []) -> x = RTrue).
Proof.
  intros Hd Ht Hr Hv Hx E. destruct (type_ok d name v def code r vs Hd Ht Hr Hv Hx) as (x' & E' & V). rewrite E in E'. injection E' as <-. pose proof (verdict_true _ _ _ _ V) as T. split.
  - intros K. apply T in K. apply (Forall_impl _ (P := fun a => unknown a \/ exists s, a = VStr s /\ whole_match r s = true)); [|exact K]. intros a [U|(s & -> & W)]; [now left|]. right. exists s. split; [reflexivity|]. now apply whole_sound.
  - intros H. apply T. apply Forall_forall. intros a Ha. pose proof (Hx a Ha) as Ta. destruct a as [s| | | | |]; try discriminate. destruct (H s Ha) as [U|[L D]]; [now left|]. right. exists s. split; [reflexivity|]. now apply whole_complete.
Qed.

(** ** Keys of loops *)
Definition implicit (d : cifdic) (k : str) : Prop := exists def, dic_get d k = Ret def /\ tget (d_must_exist d) def = Some (VStr (u "implicit")).
Definition given_keys (d : cifdic) (cat : table) (keys : list str) : Prop :=
  (tget (d_key_spec d) cat = None /\ keys = []) \/ tget (d_key_spec d) cat = Some (VList (map VStr keys)) \/ tget (d_key_spec d) cat = Some (VSL (map VStr keys)).
Lemma key_present_ok d names keys : (forall k, In k keys -> (exists def, dic_get d k = Ret def) /\ get_alternates d k false = Ret []) ->
  exists o, key_present d names keys = Ret o /\ (o = None <-> forall k, In k keys -> In k names \/ implicit d k)
  /\ (forall k, o = Some k -> In k keys /\ ~ In k names /\ ~ implicit d k).
Proof.
  induction keys as [|k keys IH]; intros H; cbn [key_present].
  - exists None. split; [reflexivity|]. split; [split; [intros _ k []|reflexivity]|discriminate].
  - destruct IH as (o & E & O1 & O2); [intros k' Hk; apply H; now right|]. destruct (H k (or_introl eq_refl)) as [(def & Hd) Ha].
    assert (In k names \/ implicit d k -> exists o, key_present d names keys = Ret o /\ (o = None <-> forall k', In k' (k :: keys) -> In k' names \/ implicit d k') /\ (forall k', o = Some k' -> In k' (k :: keys) /\ ~ In k' names /\ ~ implicit d k')) as Step.
    { intros Hk. exists o. split; [exact E|]. split; [rewrite O1; split; [intros K k' [<-|Hk']; auto|intros K k' Hk'; apply K; now right]|]. intros k' Ek. destruct (O2 k' Ek) as (K1 & K2). split; [now right|exact K2]. }
    destruct (smem k names) eqn:Em; [apply Step; left; now apply smem_spec|]. rewrite Hd. cbn [obind].
    assert (veq_text (tget (d_must_exist d) def) (u "implicit") = true <-> implicit d k) as V.
    { unfold implicit, veq_text. split.
      - intros K. exists def. split; [exact Hd|]. destruct (tget (d_must_exist d) def) as [[s| | | | |]|]; try discriminate. destruct (str_eqb_spec s (u "implicit")); [now subst|discriminate].
      - intros (def' & Hd' & K). rewrite Hd in Hd'. injection Hd' as <-. rewrite K. apply str_eqb_refl. }
    destruct (veq_text _ _); [apply Step; right; now apply V|]. rewrite Ha. cbn [obind]. exists (Some k). split; [reflexivity|].
    assert (~ In k names) as N1 by (intros K; apply smem_spec in K; rewrite K in Em; discriminate). assert (~ implicit d k) as N2 by (intros K; apply V in K; discriminate).
    split; [split; [discriminate|]; intros K; destruct (K k (or_introl eq_refl)); contradiction|]. intros k' Ek. injection Ek as <-. split; [now left|now split].
Qed.
Theorem loop_key_ok d n names def c cat keys : dic_get d n = Ret def -> tget (d_cat_spec d) def = Some (VStr c) -> dic_get d c = Ret cat -> given_keys d cat keys ->
  (forall k, In k keys -> (exists def, dic_get d k = Ret def) /\ get_alternates d k false = Ret []) ->
  exists r, validate_loop_key d (n :: names) = Ret r /\ (r = RTrue <-> forall k, In k keys -> In k (n :: names) \/ implicit d k)
  /\ (r <> RTrue -> exists k, r = RFalse [] [k] /\ In k keys /\ ~ In k (n :: names) /\ ~ implicit d k).
Proof.
  intros Hd Hc Hcat Hk H. unfold validate_loop_key. rewrite Hd. cbn [obind]. rewrite Hc, Hcat. cbn [obind].
  assert (match tget (d_key_spec d) cat with None => Ret [] | Some x => iterate x end = Ret (map VStr keys)) as -> by (destruct Hk as [[-> ->]|[->| ->]]; reflexivity).
  cbn [obind]. rewrite texts_map. cbn [obind]. destruct (key_present_ok d (n :: names) keys H) as (o & E & O1 & O2). rewrite E. cbn [obind]. eexists. split; [reflexivity|]. rewrite <- O1. destruct o as [k|].
  - split; [split; discriminate|]. intros _. exists k. split; [reflexivity|]. now apply O2.
  - split; [split; reflexivity|]. intros K; now elim K.
Qed.

(** Looping *)
Lemma py_eq_text m s : py_eq m (VStr s) = true <-> m = VStr s.
Proof.
  split; [|intros ->; cbn [py_eq]; apply str_eqb_refl].
  destruct m; cbn [py_eq]; try discriminate. destruct (str_eqb_spec s0 s); [congruence|discriminate].
Qed.
Lemma looping_ok d name v def : dget str_eqb (lower name) (d_defs d) = Some def ->
  exists r, validate_looping d name v = Ret r /\
  (r = RFalse [] [] <-> tget (d_must_loop d) def = Some (VStr (u "yes")) /\ is_text v = true \/ tget (d_must_loop d) def = Some (VStr (u "no")) /\ is_text v = false)
  /\ (r = RNone <-> tget (d_must_loop d) def = None).
Proof.
  intros E. unfold validate_looping. rewrite E. destruct (tget (d_must_loop d) def) as [m|].
  - eexists. split; [reflexivity|].
    destruct (py_eq m (VStr (u "yes"))) eqn:Y.
    + apply py_eq_text in Y. subst m. destruct (is_text v) eqn:T; cbn [andb].
      * split; [split; [intros _; left; auto|reflexivity]|split; discriminate].
      * assert (py_eq (VStr (u "yes")) (VStr (u "no")) = false) as -> by reflexivity. cbn [andb].
        split; [split; [discriminate|intros [(_ & X)|(X & _)]; discriminate X]|split; discriminate].
    + cbn [andb]. destruct (py_eq m (VStr (u "no"))) eqn:N.
      * apply py_eq_text in N. subst m. destruct (is_text v) eqn:T; cbn [andb negb].
        -- split; [split; [discriminate|intros [(X & _)|(_ & X)]; discriminate X]|split; discriminate].
        -- split; [split; [intros _; right; auto|reflexivity]|split; discriminate].
      * cbn [andb]. split; [|split; discriminate]. split; [discriminate|].
        intros [(X & _)|(X & _)]; injection X as ->; [rewrite (proj2 (py_eq_text _ _) eq_refl) in Y; discriminate Y|rewrite (proj2 (py_eq_text _ _) eq_refl) in N; discriminate N].
  - exists RNone. split; [reflexivity|]. split; [|tauto]. split; [discriminate|intros [(X & _)|(X & _)]; discriminate X].
Qed.
Lemma final_length (look : list (str * str)) cs :
  let f := flat_map (fun c => match dget str_eqb c look with Some p => [p] | None => [] end) cs in
  length f <= length cs /\ (length f = length cs <-> forall c, In c cs -> dget str_eqb c look <> None).
Proof.
  induction cs as [|c cs [A B]]; cbn [flat_map length]; [split; [lia|split; [intros _ c []|reflexivity]]|].
  destruct (dget str_eqb c look) as [p|] eqn:E; cbn [app length].
  - split; [lia|]. split.
    + intros H x [<-|I]; [congruence|]. apply B; [lia|exact I].
    + intros H. f_equal. apply B. intros x I. apply H. right. exact I.
  - split; [lia|]. split; [lia|]. intros H. exfalso. exact (H c (or_introl eq_refl) E).
Qed.
Lemma categories_length d names : forall cs, categories_of d names = Ret cs -> length cs = length names.
Proof.
  induction names as [|a r IH]; intros cs H; cbn [categories_of] in H; [injection H as <-; reflexivity|].
  destruct (dget str_eqb (lower a) (d_defs d)) as [def|]; [|discriminate]. destruct (tget (d_cat_spec d) def) as [[]|]; try discriminate.
  destruct (categories_of d r) as [cs2|] eqn:E; cbn [obind] in H; [|discriminate]. injection H as <-. cbn [length]. f_equal. apply IH. reflexivity.
Qed.
Lemma looping_ddlm_ok d names cs : categories_of d names = Ret cs ->
  exists r, validate_looping_ddlm d names = Ret r /\
  (r = RTrue <-> forall c, In c cs -> dget str_eqb c (d_lookup d) <> None) /\
  (forall v bad, r = RFalse v bad -> forall n, In n bad <-> exists c, In (n, c) (combine names cs) /\ dget str_eqb c (d_lookup d) = None).
Proof.
  intros E. unfold validate_looping_ddlm, get_final_cats. rewrite E. cbn [obind].
  destruct (final_length (d_lookup d) cs) as [A B]. rewrite <- (categories_length _ _ _ E).
  match goal with |- context [length ?f <? length cs] => set (k := length f) in * end.
  destruct (Nat.ltb_spec k (length cs)) as [Lt|Ge].
  - eexists. split; [reflexivity|]. split; [split; [discriminate|intros H; apply B in H; lia]|].
    intros v bad X. injection X as <- <-. intros n. rewrite in_map_iff. split.
    + intros ([n2 c] & <- & I). apply filter_In in I as [I N]. exists c. split; [exact I|]. cbn [snd] in N. unfold dmem in N. destruct (dget str_eqb c (d_lookup d)); [discriminate N|reflexivity].
    + intros (c & I & N). exists (n, c). split; [reflexivity|]. apply filter_In. split; [exact I|]. cbn [snd]. unfold dmem. rewrite N. reflexivity.
  - exists RTrue. split; [reflexivity|]. split; [|discriminate]. split; [|reflexivity]. intros _. apply B. lia.
Qed.
