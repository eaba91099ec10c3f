From Coq Require Import String Ascii List NArith ZArith QArith Bool Lia.
From Verif Require Import PyBase StarBlockModel StarBlockProofs RegexModel NumberModel LoopSpec NumberSpec NumberProofs3 ValidateModel ValidateSpec ValidateProofs ValidateProofs2 ValidateProofs3 ValidateProofs4.
From Verif Require Import BlockCheckModel BlockCheckSpec BlockCheckProofs TreeModel KeyModel KeyProofs2 VerdictModel VerdictSpec.
Import ListNotations.
Open Scope nat_scope.

(** * Standard uncertainties *)
Lemma su_decided s : exists e, get_number s = Ret e /\ ((exists q w, snd e = Some q /\ su_of (VStr s) w /\ (q == w)%Q) \/ (snd e = None /\ ~ has_su (VStr s))).
Proof.
  destruct (number_prefix s) as [(n & x & e & L & G & _ & Hu)|[No G]]; rewrite G; eexists; (split; [reflexivity|]); cbn [snd].
  - destruct e as [e|], (uncertainty n) as [w|] eqn:Eu; cbn in Hu; try contradiction.
    + left. exists e, w. split; [reflexivity|]. split; [|exact Hu]. exists s, n. auto.
    + right. split; [reflexivity|]. intros (w & s0 & n0 & E & L0 & U). injection E as <-. rewrite <- (numeral_unique s n n0 L L0) in U. congruence.
  - right. split; [reflexivity|]. intros (w & s0 & n0 & E & (P0 & (rest & E1) & _) & _). injection E as <-. elim (No n0 rest P0 E1).
Qed.
(** The values reported for the values [off]. *)
Definition reported (num : Q -> value) (meas : bool) (off bad : list value) : Prop :=
  Forall2 (fun a b : value => if meas then b = VNone else exists q w : Q, b = num q /\ su_of a w /\ (q == w)%Q) off bad.
Lemma sus_split num (meas : bool) vs : (forall a, In a vs -> is_text a = true) ->
  exists (es : list (option Q)) off, sus vs = Ret es /\ offenders (fun a => if meas then has_su a else ~ has_su a) vs off
  /\ reported num meas off (map (su_value num) (filter (fun e : option Q => match e with None => meas | Some _ => negb meas end) es)).
Proof.
  induction vs as [|a vs IH]; intros T; [exists [], []; split; [reflexivity|]; split; constructor|].
  destruct IH as (es & off & E & O & R); [intros b I; apply T; now right|]. pose proof (T a (or_introl eq_refl)) as Ta. destruct a as [s| | | | |]; try discriminate.
  destruct (su_decided s) as (e & G & D). cbn [sus number_of]. rewrite G. cbn [obind]. rewrite E. cbn [obind]. destruct D as [(q & w & Q1 & Q2 & Q3)|(Q1 & Q2)]; rewrite Q1; destruct meas.
  - exists (Some q :: es), off. split; [reflexivity|]. split; [|exact R]. constructor 3; [now exists w|exact O].
  - exists (Some q :: es), (VStr s :: off). split; [reflexivity|]. split; [constructor 2; [intros K; apply K; now exists w|exact O]|]. cbn [filter negb map su_value]. constructor; [now exists q, w|exact R].
  - exists (None :: es), (VStr s :: off). split; [reflexivity|]. split; [now constructor 2|]. cbn [filter map su_value]. constructor; [reflexivity|exact R].
  - exists (None :: es), off. split; [reflexivity|]. split; [|exact R]. now constructor 3.
Qed.
Lemma kinds ty : number_kind ty <-> In ty number_types.
Proof.
  split; [intros []; unfold number_types; cbn [map In]; tauto|]. unfold number_types. cbn [map]. intros H. repeat (destruct H as [<-|H]; [constructor|]). destruct H.
Qed.
Lemma su_exact num attr d name v def vs ty : dic_get d name = Ret def -> tget attr def = Some (VStr ty) -> number_kind ty -> held v vs -> (forall a, In a vs -> is_text a = true) ->
  exists x off bad, su_check num attr d name v = Ret x
  /\ offenders (fun a => if veq_text (tget (u "_type.purpose") def) (u "Measurand") then has_su a else ~ has_su a) vs off
  /\ reported num (veq_text (tget (u "_type.purpose") def) (u "Measurand")) off bad
  /\ (off = [] -> x = RTrue) /\ (off <> [] -> x = RFalse bad []).
Proof.
  intros D A I V T. apply kinds in I. set (meas := veq_text _ _). destruct (sus_split num meas vs T) as (es & off & E & O & R). unfold su_check. rewrite D. cbn [obind]. rewrite A.
  assert (smem ty number_types = true) as -> by now apply smem_spec. cbn [negb]. rewrite (listify_held _ _ V). cbn [obind]. rewrite E. cbn [obind]. fold meas.
  set (fl := filter _ es) in *. eexists _, off, (map (su_value num) fl). split; [reflexivity|]. split; [exact O|]. split; [exact R|]. split; intros H.
  - subst off. inversion R. destruct fl; [reflexivity|discriminate].
  - destruct fl as [|x l]; [inversion R; congruence|reflexivity].
Qed.
Lemma su_other num attr d name v def : dic_get d name = Ret def -> (forall ty, tget attr def = Some (VStr ty) -> ~ number_kind ty) -> su_check num attr d name v = Ret RNone.
Proof.
  intros D A. unfold su_check. rewrite D. cbn [obind]. destruct (tget attr def) as [[s| | | | |]|]; try reflexivity. destruct (smem s number_types) eqn:E; [|reflexivity].
  elim (A s eq_refl). apply kinds. now apply smem_spec.
Qed.
Lemma su_none num attr d name v def : dic_get d name = Ret def -> tget attr def = None -> su_check num attr d name v = Ret RNone.
Proof. intros D A. unfold su_check. rewrite D. cbn [obind]. now rewrite A. Qed.

(** * The verdict *)
Definition ok (r : result) : Prop := forall v b, r <> RFalse v b.
Lemma ok_true r : r <> RNone -> (ok r <-> r = RTrue).
Proof. intros N. destruct r as [| |v b]; [now elim N|split; [reflexivity|intros _ v b; discriminate]|split; [intros H; now elim (H v b)|discriminate]]. Qed.
(** Items *)
Definition item_listed (d : cifdic) (k : str) (v : value) : Prop := forall vs l a, enumerates d k l -> held v vs -> In a vs -> listed l a.
Lemma held_fun v vs vs' : held v vs -> held v vs' -> vs = vs'.
Proof. intros H H'. inversion H; subst; now inversion H'. Qed.
Lemma enumerates_fun d k l l' : enumerates d k l -> enumerates d k l' -> l = l'.
Proof. intros (def & e & D & E & L) (def' & e' & D' & E' & L'). rewrite D in D'. injection D' as <-. rewrite E in E'. injection E' as <-. destruct L as [->| ->], L' as [L'|L']; congruence. Qed.
Lemma item_verdict num d k v : answerable_item d k v ->
  (exists r, validate_item_enum d k v = Ret r /\ (ok r <-> item_listed d k v)) /\ validate_item_esd_ddlm num d k v = Ret RNone.
Proof.
  intros (def & vs & D & V & A & E). split; [|exact (su_none num _ d k v def D A)]. destruct E as [E|(l & En)].
  - exists RNone. split; [apply enum_none; intros def' D'; congruence|]. split; [|intros _ x b; discriminate]. intros _ vs' l a (def' & e & D' & E' & _). congruence.
  - pose proof En as (def' & e & D' & E' & L). destruct (enum_ok d k v def' l e vs D' E' L V) as (r & Er & Vr). exists r. split; [exact Er|].
    assert (r <> RNone) as N. { destruct Vr as (bad & _ & T & F). destruct bad as [|x bad]; [rewrite T by reflexivity; discriminate|rewrite F by discriminate; discriminate]. }
    rewrite (ok_true r N). rewrite (verdict_true _ _ _ _ Vr), Forall_forall. split.
    + intros H vs' l' a En' V' I. rewrite (enumerates_fun d k l' l En' En). apply H. now rewrite (held_fun v vs vs' V V').
    + intros H a I. exact (H vs l a En V I).
Qed.
(** Loops *)
Definition catted (d : cifdic) (a c : str) : Prop := exists def x, dic_get d a = Ret def /\ tget (d_cat_spec d) def = Some (VStr x) /\ c = lower x.
Lemma categories_ok d names : (forall a, In a names -> exists def c, dic_get d a = Ret def /\ tget (d_cat_spec d) def = Some (VStr c)) ->
  exists cs, categories_of d names = Ret cs /\ Forall2 (catted d) names cs.
Proof.
  induction names as [|a l IH]; intros H; [exists []; split; [reflexivity|constructor]|]. destruct IH as (cs & E & F); [intros b I; apply H; now right|].
  destruct (H a (or_introl eq_refl)) as (def & c & D & C). exists (lower c :: cs). cbn [categories_of]. pose proof D as D'. apply dic_get_dget in D'. rewrite D', C, E. split; [reflexivity|]. constructor; [now exists def, c|exact F].
Qed.
Lemma catted_fun d a c c' : catted d a c -> catted d a c' -> c = c'.
Proof. intros (def & x & D & C & ->) (def' & x' & D' & C' & ->). rewrite D in D'. injection D' as <-. rewrite C in C'. injection C' as <-. reflexivity. Qed.
Lemma uppermost_catted d a c p : catted d a c -> (uppermost d a p <-> dget str_eqb c (d_lookup d) = Some p).
Proof.
  intros H. pose proof H as (def & x & D & C & ->). split; [|intros G; now exists def, x]. intros (def' & c' & D' & C' & G). rewrite D in D'. injection D' as <-. rewrite C in C'. injection C' as <-. exact G.
Qed.
Lemma F2_l {A B} (R : A -> B -> Prop) l l' a : Forall2 R l l' -> In a l -> exists b, In b l' /\ R a b.
Proof. induction 1 as [|x y l l' r F IH]; [intros []|]. intros [<-|I]; [exists y; split; [now left|exact r]|]. destruct (IH I) as (b & Ib & Rb). exists b. split; [now right|exact Rb]. Qed.
Lemma F2_r {A B} (R : A -> B -> Prop) l l' b : Forall2 R l l' -> In b l' -> exists a, In a l /\ R a b.
Proof. induction 1 as [|x y l l' r F IH]; [intros []|]. intros [<-|I]; [exists x; split; [now left|exact r]|]. destruct (IH I) as (a & Ia & Ra). exists a. split; [now right|exact Ra]. Qed.
Lemma member_nn d names r : validate_loop_membership d names = Ret r -> r <> RNone.
Proof.
  unfold validate_loop_membership. destruct (get_final_cats d names) as [cs|]; [|discriminate]. cbn [obind]. destruct cs as [|c cs]; [intros H; injection H as <-; discriminate|].
  destruct (filter _ _); intros H; injection H as <-; discriminate.
Qed.
Lemma looping_nn d names r : validate_looping_ddlm d names = Ret r -> r <> RNone.
Proof.
  unfold validate_looping_ddlm. destruct (get_final_cats d names) as [cs|]; [|discriminate]. cbn [obind]. destruct (length cs <? length names); [|intros H; injection H as <-; discriminate].
  destruct (categories_of d names); [|discriminate]. cbn [obind]. intros H. injection H as <-. discriminate.
Qed.
Lemma loop_verdict d tbl names : answerable_loop d tbl names ->
  exists r1 r2 r3, validate_looping_ddlm d names = Ret r1 /\ validate_loop_key_ddlm d tbl names = Ret r2 /\ validate_loop_membership d names = Ret r3
  /\ (ok r1 /\ ok r2 /\ ok r3 <-> loop_fits d tbl names).
Proof.
  intros (NE & C & K). destruct (categories_ok d names C) as (cs & E & F). destruct (looping_ddlm_ok d names cs E) as (r1 & E1 & T1 & _). destruct (membership_ok d names cs E) as (r3 & E3 & T3).
  pose proof (ok_true r1 (looping_nn d names r1 E1)) as O1. pose proof (ok_true r3 (member_nn d names r3 E3)) as O3.
  assert (exists r2, validate_loop_key_ddlm d tbl names = Ret r2) as (r2 & E2).
  { unfold validate_loop_key_ddlm, get_final_cats. rewrite E. cbn [obind]. destruct (flat_map _ cs) as [|p ps] eqn:Ep; [eexists; reflexivity|].
    assert (In p (p :: ps)) as I by now left. rewrite <- Ep in I. apply in_flat_map in I. destruct I as (c & Ic & Ip). destruct (dget str_eqb c (d_lookup d)) as [p'|] eqn:Gc; [|destruct Ip]. destruct Ip as [<-|[]].
    destruct (F2_r _ _ _ _ F Ic) as (a & Ia & Ra). destruct (K a p' Ia (proj2 (uppermost_catted d a c p' Ra) Gc)) as (key & rest & Gt). rewrite Gt. eexists. reflexivity. }
  exists r1, r2, r3. split; [exact E1|]. split; [exact E2|]. split; [exact E3|]. destruct names as [|a0 names]; [now elim NE|]. destruct cs as [|c0 cs]; [inversion F|]. assert (catted d a0 c0) as R0 by now inversion F.
  assert (forall p key rest, dget str_eqb c0 (d_lookup d) = Some p -> dget str_eqb p tbl = Some (map VStr key :: rest) -> (ok r2 <-> exists k, In k key /\ In k (a0 :: names))) as O2.
  { intros p key rest G0 Gt. destruct R0 as (def & x & D & Cx & ->). pose proof D as D'. apply dic_get_dget in D'.
    assert (forall b, In b names -> exists t' y, dget str_eqb (lower b) (d_defs d) = Some t' /\ tget (d_cat_spec d) t' = Some (VStr y)) as Hn.
    { intros b I. destruct (C b (or_intror I)) as (def' & y & D1 & C1). exists def', y. split; [now apply dic_get_dget|exact C1]. }
    rewrite (key_check d tbl a0 names x def p key rest D' Cx G0 Hn Gt) in E2. injection E2 as <-. destruct (existsb _ key) eqn:Ex.
    - split; [|intros _ v b; discriminate]. intros _. apply existsb_exists in Ex. destruct Ex as (k & Ik & Sk). exists k. split; [exact Ik|now apply smem_spec].
    - split; [intros H; now elim (H [] key)|]. intros (k & Ik & Sk). exfalso. apply not_true_iff_false in Ex. apply Ex. apply existsb_exists. exists k. split; [exact Ik|]. exact (proj2 (smem_spec k (a0 :: names)) Sk). }
  split.
  - intros (P1 & P2 & P3). pose proof (proj1 T1 (proj1 O1 P1)) as Q1. pose proof (proj1 T3 (proj1 O3 P3)) as Q3. destruct (dget str_eqb c0 (d_lookup d)) as [p|] eqn:G0; [|elim (Q1 c0 (or_introl eq_refl)); exact G0].
    destruct (K a0 p (or_introl eq_refl) (proj2 (uppermost_catted d a0 c0 p R0) G0)) as (key & rest & Gt). destruct (proj1 (O2 p key rest eq_refl Gt) P2) as (k & Ik & Jk). exists p, key, rest, k.
    split; [|auto]. intros a Ia. destruct (F2_l _ _ _ _ F Ia) as (c & Ic & Rc). apply (uppermost_catted d a c p Rc). destruct (dget str_eqb c (d_lookup d)) as [p'|] eqn:Gc; [|elim (Q1 c Ic); exact Gc].
    f_equal. exact (Q3 c c0 p' p Ic (or_introl eq_refl) Gc G0).
  - intros (p & key & rest & k & U & Gt & Ik & Jk).
    assert (forall c, In c (c0 :: cs) -> dget str_eqb c (d_lookup d) = Some p) as G. { intros c Ic. destruct (F2_r _ _ _ _ F Ic) as (a & Ia & Ra). exact (proj1 (uppermost_catted d a c p Ra) (U a Ia)). }
    split; [apply O1, T1; intros c Ic; rewrite (G c Ic); discriminate|]. split; [apply (O2 p key rest (G c0 (or_introl eq_refl)) Gt); now exists k|].
    apply O3, T3. intros c c' q q' Ic Ic' Gq Gq'. rewrite (G c Ic) in Gq. rewrite (G c' Ic') in Gq'. congruence.
Qed.
(** Blocks *)
Lemma scope_fun t s s' : in_scope t (u "Item") s -> in_scope t (u "Item") s' -> s = s'.
Proof. intros H H'. destruct H, H'; congruence. Qed.
Lemma scope_verdict pick (P : str -> Prop) sc t : (forall a, pick a = true <-> P a) -> answerable_scope sc t ->
  exists r, check_scope pick sc t (u "Item") = Ret r /\ (ok r <-> forall a, names_for sc t a -> ~ P a).
Proof.
  intros HP [->|(s & names & S & G)].
  - exists RTrue. split; [reflexivity|]. split; [|intros _ v b; discriminate]. intros _ a (s & names & _ & G & _). discriminate G.
  - destruct (check_scope_ok pick P sc t (u "Item") s names HP S ltac:(discriminate) G) as (r & E & T & D). exists r. split; [exact E|]. rewrite (ok_true r).
    + rewrite T. split; [|intros H a I; apply H; now exists s, names]. intros H a (s' & names' & S' & G' & I). rewrite (scope_fun t s' s S' S) in G'. rewrite G in G'. injection G' as <-. now apply H.
    + destruct D as [->|(bad & -> & _)]; discriminate.
Qed.
(** All together. *)
Lemma verdict_ok num d tbl mand naughty t loops :
  (forall k v, In (k, v) t -> answerable_item d k v) -> (forall names, In names loops -> answerable_loop d tbl names) -> answerable_scope mand t -> answerable_scope naughty t ->
  exists valid rep, run_data_checks (ddlm_checks num d tbl mand naughty) t loops = Ret (valid, rep)
  /\ (valid = true <-> values_listed d t /\ (forall names, In names loops -> loop_fits d tbl names)
      /\ (forall a, names_for mand t a -> tget a t <> None) /\ (forall a, names_for naughty t a -> tget a t = None)).
Proof.
  intros HI HL HM HN.
  assert (forall a, negb (tmem a t) = true <-> tget a t = None) as PM by (intros a; unfold tmem; destruct (tget a t); split; intros; try discriminate; reflexivity).
  assert (forall a, tmem a t = true <-> tget a t <> None) as PN by (intros a; unfold tmem; destruct (tget a t); split; intros H; try discriminate; try reflexivity; now elim H).
  destruct (scope_verdict _ _ mand t PM HM) as (rm & Em & Om). destruct (scope_verdict _ _ naughty t PN HN) as (rn & En & On). set (ks := ddlm_checks num d tbl mand naughty).
  assert (returned (calls ks t loops) /\ ((forall c, In c (calls ks t loops) -> ~ fails c) <-> values_listed d t /\ (forall names, In names loops -> loop_fits d tbl names)
      /\ (forall a, names_for mand t a -> tget a t <> None) /\ (forall a, names_for naughty t a -> tget a t = None))) as (R & V).
  { unfold calls, ks, ddlm_checks. cbn [k_item k_global k_loop k_block map fst snd app]. split.
    - unfold returned. apply Forall_app. split; [|apply Forall_app; split].
      + apply Forall_forall. intros c I. apply in_flat_map in I. destruct I as ((k & v) & Ik & I). destruct (item_verdict num d k v (HI k v Ik)) as ((r & Er & _) & Es). destruct I as [<-|[<-|[]]]; cbn [fst snd]; eexists; eassumption.
      + apply Forall_forall. intros c I. apply in_flat_map in I. destruct I as (names & In_ & I). destruct (loop_verdict d tbl names (HL names In_)) as (r1 & r2 & r3 & E1 & E2 & E3 & _). destruct I as [<-|[<-|[<-|[]]]]; cbn [fst snd]; eexists; eassumption.
      + constructor; [eexists; exact Em|]. constructor; [eexists; exact En|constructor].
    - split.
      + intros H. split; [|split; [|split]].
        * intros k v vs l a Ik. destruct (item_verdict num d k v (HI k v Ik)) as ((r & Er & O) & _). apply (proj1 O). intros x b ->.
          apply (H (Some k, u "validate_item_enum", validate_item_enum d k v)); [|exists x, b; exact Er]. apply in_or_app. left. apply in_flat_map. exists (k, v). split; [exact Ik|now left].
        * intros names In_. destruct (loop_verdict d tbl names (HL names In_)) as (r1 & r2 & r3 & E1 & E2 & E3 & O). apply (proj1 O).
          assert (forall c, In c [(hd_error names, u "validate_looping_ddlm", validate_looping_ddlm d names); (hd_error names, u "validate_loop_key_ddlm", validate_loop_key_ddlm d tbl names); (hd_error names, u "validate_loop_membership", validate_loop_membership d names)] -> ~ fails c) as J.
          { intros c I. apply H. apply in_or_app. right. apply in_or_app. left. apply in_flat_map. exists names. split; [exact In_|exact I]. }
          split; [|split]; intros v b ->; [eapply (J _ (or_introl eq_refl))|eapply (J _ (or_intror (or_introl eq_refl)))|eapply (J _ (or_intror (or_intror (or_introl eq_refl))))]; exists v, b; eassumption.
        * intros a Na. refine (proj1 Om _ a Na). intros v b ->. apply (H (Some (u "whole_block"), u "check_mandatory_items", check_mandatory_items mand t (u "Item"))); [|exists v, b; exact Em].
          apply in_or_app. right. apply in_or_app. right. now left.
        * intros a Na. assert (~ tget a t <> None) as X. { refine (proj1 On _ a Na). intros v b ->. apply (H (Some (u "whole_block"), u "check_prohibited_items", check_prohibited_items naughty t (u "Item"))); [|exists v, b; exact En].
            apply in_or_app. right. apply in_or_app. right. right. now left. }
          destruct (tget a t); [elim X; discriminate|reflexivity].
      + intros (H1 & H2 & H3 & H4) c I (v & b & Ec). apply in_app_or in I. destruct I as [I|I]; [|apply in_app_or in I; destruct I as [I|I]].
        * apply in_flat_map in I. destruct I as ((k & x) & Ik & I). destruct (item_verdict num d k x (HI k x Ik)) as ((r & Er & O) & Es). destruct I as [<-|[<-|[]]]; cbn [fst snd] in Ec; [|congruence].
          assert (ok r) as Or by (apply O; intros vs l a En' Hv Ia; exact (H1 k x vs l a Ik En' Hv Ia)). apply (Or v b). congruence.
        * apply in_flat_map in I. destruct I as (names & In_ & I). destruct (loop_verdict d tbl names (HL names In_)) as (r1 & r2 & r3 & E1 & E2 & E3 & O). destruct (proj2 O (H2 names In_)) as (O1 & O2 & O3).
          destruct I as [<-|[<-|[<-|[]]]]; cbn [fst snd] in Ec; [apply (O1 v b)|apply (O2 v b)|apply (O3 v b)]; congruence.
        * destruct I as [<-|[<-|[]]]; cbn [fst snd] in Ec.
          -- unfold check_mandatory_items in Ec. rewrite Em in Ec. assert (ok rm) as O by (apply Om; exact H3). apply (O v b). congruence.
          -- unfold check_prohibited_items in Ec. rewrite En in Ec. assert (ok rn) as O by (apply On; intros a Na K; apply K; now apply H4). apply (O v b). congruence. }
  destruct (run_total ks t loops R) as (valid & rep & E); [apply Forall_forall; intros names I; exact (proj1 (HL names I))|]. exists valid, rep. split; [exact E|].
  destruct (run_ok ks t loops valid rep E) as (_ & W & _). rewrite W. exact V.
Qed.
