From Coq Require Import String Ascii List NArith Bool Lia.
From Verif Require Import PyBase PyFacts StarBlockModel ValidateModel ValidateSpec ValidateProofs ValidateProofs2 ValidateProofs3 TreeModel TreeSpec TreeProofs TreeProofs2 KeyModel KeySpec KeyProofs KeyProofs2.
Import ListNotations.
Open Scope nat_scope.

Lemma texts_inv l : forall ss, texts l = Ret ss -> l = map VStr ss.
Proof.
  induction l as [|v l IH]; intros ss; [intros E; injection E as <-; reflexivity|]. unfold texts. cbn [fold_right]. fold (texts l).
  destruct v; try discriminate. destruct (texts l) as [r|]; cbn [obind]; [|discriminate]. intros E. injection E as <-. cbn [map]. now rewrite <- (IH r eq_refl).
Qed.
Lemma key_names_is t ks : key_names t = Ret ks -> key_is t ks.
Proof.
  unfold key_names, a_key_name. destruct (tget (u "_category_key.name") t) as [[s| | |l|l|]|] eqn:E; try discriminate.
  - intros K. injection K as <-. now apply ki_one.
  - intros K. apply texts_inv in K. subst l. now apply ki_list.
  - intros K. apply texts_inv in K. subst l. now apply ki_sl.
Qed.
Definition grown (o : option (list str)) (l : list str) : option (list str) := match l with [] => o | _ => Some (match o with Some x => x | None => [] end ++ l) end.
Lemma grown_cons o x l : grown (Some (match o with Some y => y | None => [] end ++ [x])) l = grown o (x :: l).
Proof. destruct l; cbn [grown]; [reflexivity|]. now rewrite <- app_assoc. Qed.
Lemma linked_ok d low : well_formed d -> forall lk, linked_keys d low = Ret lk -> Forall2 (fun w s => exists t, In (lower w, t) d /\ tget a_linked t = Some (VStr s)) low lk.
Proof.
  intros W. induction low as [|w r IH]; intros lk; cbn [linked_keys]; [intros E; injection E as <-; constructor|].
  unfold def_of. destruct (dget str_eqb (lower w) d) as [t|] eqn:G; [|discriminate]. cbn [obind]. destruct (tget a_linked t) as [[s| | | | |]|] eqn:L; try discriminate.
  destruct (linked_keys d r) as [l|]; cbn [obind]; [|discriminate]. intros E. injection E as <-. constructor; [|now apply IH]. exists t. split; [now apply (defs_dget d _ _ (w_keys d W))|exact L].
Qed.
Lemma fold_equivs lk : forall start e, length lk = length start -> NoDup start ->
  let e' := fold_left (fun e pc => add_equiv (snd pc) (fst pc) e) (combine lk start) e in
  (forall i k w, nth_error start i = Some k -> nth_error lk i = Some w -> dget str_eqb k e' = Some (match dget str_eqb k e with Some x => x | None => [] end ++ [w]))
  /\ forall k, ~ In k start -> dget str_eqb k e' = dget str_eqb k e.
Proof.
  induction lk as [|p lk IH]; intros [|c start] e L Nd; try discriminate L.
  - cbn. split; [intros [|i] k w K; discriminate K|auto].
  - cbn [combine fold_left fst snd]. inversion Nd as [|? ? Nc Nr]; subst. destruct (IH start (add_equiv c p e) (f_equal pred L) Nr) as (A & B). split.
    + intros [|i] k w K1 K2; cbn [nth_error] in *.
      * injection K1 as <-. injection K2 as <-. rewrite (B _ Nc). unfold add_equiv. now rewrite dget_dset_same.
      * rewrite (A i k w K1 K2). unfold add_equiv. rewrite dget_dset_other; [reflexivity|]. intros ->. apply Nc. now apply nth_error_In in K1.
    + intros k N. cbn [In] in N. rewrite B; [|tauto]. unfold add_equiv. apply dget_dset_other. intros ->. apply N. now left.
Qed.
Lemma category_text_ok d x s : well_formed d -> (category_text d x = Ret s <-> exists t, In (lower x, t) d /\ tget a_category t = Some (VStr s)).
Proof.
  intros W. unfold category_text, def_of. split.
  - destruct (dget str_eqb (lower x) d) as [t|] eqn:G; [|discriminate]. cbn [obind]. destruct (tget a_category t) as [[s'| | | | |]|] eqn:C; try discriminate.
    intros E. injection E as <-. exists t. split; [now apply (defs_dget d _ _ (w_keys d W))|exact C].
  - intros (t & I & C). rewrite (proj2 (defs_dget d _ t (w_keys d W)) I). cbn [obind]. now rewrite C.
Qed.
Lemma same_set_incl a b : same_set a b = true -> incl b a.
Proof. unfold same_set. rewrite andb_true_iff, !forallb_forall. intros (_ & H) x I. now apply smem_spec, H. Qed.
Lemma looped_cats_nodup d : well_formed d -> NoDup (looped_cats d).
Proof. intros W. apply NoDup_map_filter, (w_keys d W). Qed.
Lemma filter_eq_one x (l : list str) : NoDup l -> filter (fun a => str_eqb x a) l = if smem x l then [x] else [].
Proof.
  induction l as [|a l IH]; intros N; [reflexivity|]. inversion N as [|? ? Na Nl]; subst. cbn [filter]. destruct (str_eqb_spec x a) as [->|D].
  - rewrite (IH Nl). rewrite (proj2 (smem_spec a (a :: l)) (or_introl eq_refl)). destruct (smem a l) eqn:S; [apply smem_spec in S; contradiction|reflexivity].
  - rewrite (IH Nl). destruct (smem x l) eqn:S, (smem x (a :: l)) eqn:S'; try reflexivity; exfalso.
    + apply smem_spec in S. assert (smem x (a :: l) = true) by (apply smem_spec; now right). congruence.
    + apply smem_spec in S'. destruct S' as [<-|S']; [contradiction|]. apply smem_spec in S'. congruence.
Qed.
Lemma lower_twice s : lower (lower s) = lower s. Proof. apply lower_idem. Qed.
Section hier.
Variable d : defs.
Hypothesis W : well_formed d.
Hypothesis O : own_items d.
Lemma follow_ok n : forall start low e e' c ks, follow_keys n d (looped_cats d) start low e = Ret e' -> NoDup start -> length low = length start -> low <> [] ->
  category d c -> looped d c -> has_key d c ks -> incl low ks ->
  exists m, loops_above d c m /\ (forall i k w, nth_error start i = Some k -> nth_error low i = Some w -> exists l, links d w l /\ length l = m /\ dget str_eqb k e' = grown (dget str_eqb k e) l)
  /\ (forall k, ~ In k start -> dget str_eqb k e' = dget str_eqb k e).
Proof.
  induction n as [|n IH]; intros start low e e' c ks E Nd Ln Ne Cc Lc (tc & Itc & Kc) Inc;
  (destruct low as [|k0 low]; [contradiction|]; set (lw := k0 :: low) in *;
   destruct (O c tc ks k0 Itc Cc Lc Kc (Inc k0 (or_introl eq_refl))) as (t0 & s0 & I0 & C0 & Es);
   unfold lw in E; cbn [follow_keys] in E; fold lw in E;
   rewrite (proj2 (category_text_ok d k0 s0 W) (ex_intro _ t0 (conj I0 C0))) in E; cbn [obind] in E;
   assert (In c (looped_cats d)) as Icc by (apply looped_cats_spec; auto);
   assert ((match looped_cats d with [] => true | _ => false end) = false) as Enil by (destruct (looped_cats d); [destruct Icc|reflexivity]);
   rewrite Enil in E;
   destruct (category_text d s0) as [up|] eqn:Cu; cbn [obind] in E; [|discriminate E];
   apply (category_text_ok d s0 up W) in Cu; destruct Cu as (t1 & I1 & C1); rewrite Es in I1;
   rewrite (filter_eq_one (lower up) _ (looped_cats_nodup d W)) in E; destruct (smem (lower up) (looped_cats d)) eqn:S).
  - exfalso. destruct (def_of d (lower up)) as [pt|]; cbn [obind] in E; [|discriminate E]. destruct (key_names pt) as [pk|]; cbn [obind] in E; [|discriminate E].
    destruct (linked_keys d lw) as [lk|]; cbn [obind] in E; [|discriminate E]. destruct (same_set pk lk); discriminate E.
  - injection E as <-. exists 0. split; [|split; [|reflexivity]].
    + apply (la_none d c t1 up I1 C1). intros (A & B). assert (smem (lower up) (looped_cats d) = true) by (apply smem_spec, looped_cats_spec; auto). congruence.
    + intros i k w _ _. exists []. split; [constructor|]. now split.
  - apply smem_spec in S. apply (looped_cats_spec d _ W) in S. destruct S as (Cp & Lp).
    destruct (looped_def d (lower up) W Lp) as (pt & Ip & Ep). rewrite Ep in E. cbn [obind] in E. destruct (key_names pt) as [pk|] eqn:Ek; cbn [obind] in E; [|discriminate E].
    destruct (linked_keys d lw) as [lk|] eqn:El; cbn [obind] in E; [|discriminate E]. destruct (same_set pk lk) eqn:Ess; [|discriminate E].
    apply (linked_ok d lw W) in El. assert (length lk = length start) as Llk by (rewrite <- Ln; clear - El; induction El; cbn; [reflexivity|now rewrite IHEl]).
    destruct (fold_equivs lk start e Llk Nd) as (FA & FB).
    destruct (IH _ _ _ _ (lower up) pk E Nd Llk) as (m & La & P & Q); auto.
    + intros ->. inversion El.
    + exists pt. split; [exact Ip|now apply key_names_is].
    + now apply same_set_incl.
    + exists (Datatypes.S m). split; [exact (la_more d c t1 up m I1 C1 Cp Lp La)|]. split.
      * intros i k w K1 K2. destruct (nth_error lk i) as [s|] eqn:K3.
        -- destruct (P i k s K1 K3) as (l & Hl & <- & Hd). exists (s :: l). split; [|split; [reflexivity|]].
           ++ assert (exists t, In (lower w, t) d /\ tget a_linked t = Some (VStr s)) as (t & It & Lt).
              { clear - El K2 K3. revert i K2 K3. induction El as [|x y lx ly R El IH]; intros [|i] K2 K3; try discriminate K2; cbn [nth_error] in *; [injection K2 as <-; injection K3 as <-; exact R|exact (IH i K2 K3)]. }
              exact (li_step d w t s l It Lt Hl).
           ++ rewrite Hd, (FA i k s K1 K3). apply grown_cons.
        -- exfalso. apply nth_error_None in K3. assert (nth_error start i <> None) as X by congruence. apply nth_error_Some in X. lia.
      * intros k N. rewrite (Q k N). now apply FB.
  - injection E as <-. exists 0. split; [|split; [|reflexivity]].
    + apply (la_none d c t1 up I1 C1). intros (A & B). assert (smem (lower up) (looped_cats d) = true) by (apply smem_spec, looped_cats_spec; auto). congruence.
    + intros i k w _ _. exists []. split; [constructor|]. now split.
Qed.
Hypothesis K : keys_distinct d.
Lemma hierarchy_ok n l : forall e e', hierarchy n d (looped_cats d) l e = Ret e' -> NoDup l -> incl l (looped_cats d) ->
  (forall c ks k, In c l -> has_key d c ks -> In k ks -> dget str_eqb k e = None) ->
  (forall c ks k, In c l -> has_key d c ks -> In k ks -> exists m x, loops_above d c m /\ links d k x /\ length x = m /\ dget str_eqb k e' = grown None x)
  /\ (forall k, (forall c ks, In c l -> has_key d c ks -> ~ In k ks) -> dget str_eqb k e' = dget str_eqb k e).
Proof.
  induction l as [|c r IH]; intros e e' E Nd Inc Fresh; cbn [hierarchy] in E.
  - injection E as <-. split; [intros ? ? ? []|auto].
  - inversion Nd as [|? ? Nc Nr]; subst. assert (category d c /\ looped d c) as (Cc & Lc) by (apply (looped_cats_spec d c W), Inc; now left).
    destruct (looped_def d c W Lc) as (t & It & Ed). rewrite Ed in E. cbn [obind] in E. destruct (key_names t) as [ks|] eqn:Ek; cbn [obind] in E; [|discriminate E].
    destruct (follow_keys n d (looped_cats d) ks ks e) as [e1|] eqn:Ef; cbn [obind] in E; [|discriminate E]. apply key_names_is in Ek.
    assert (has_key d c ks) as Hk by now exists t.
    assert (forall ks', has_key d c ks' -> ks' = ks) as Uniq.
    { intros ks' (t' & It' & Kt'). apply (defs_dget d _ _ (w_keys d W)) in It, It'. rewrite It in It'. injection It' as <-.
      assert (forall a b : list str, map VStr a = map VStr b -> a = b) as Inj.
      { induction a as [|y a IHa]; intros [|z b] X; try discriminate X; [reflexivity|]. injection X as -> X. now rewrite (IHa _ X). }
      pose proof (key_is_own _ _ Kt') as X. rewrite (key_is_own _ _ Ek) in X. injection X as X. symmetry. now apply Inj. }
    assert (looped d c -> forall c' ks' k, In c' r -> has_key d c' ks' -> In k ks' -> ~ In k ks) as Other.
    { intros _ c' ks' k I' (t' & It' & Kt') Ik' Ik. assert (looped d c') as Lc' by (apply (looped_cats_spec d c' W), Inc; now right).
      pose proof (proj2 K c t ks c' t' ks' k It It' Lc Lc' Ek Kt' Ik Ik') as ->. contradiction. }
    assert ((forall k, In k ks -> exists m x, loops_above d c m /\ links d k x /\ length x = m /\ dget str_eqb k e1 = grown (dget str_eqb k e) x) /\ (forall k, ~ In k ks -> dget str_eqb k e1 = dget str_eqb k e)) as (P1 & P2).
    { destruct ks as [|k0 ks0] eqn:Eks.
      - assert (e1 = e) as -> by (destruct n; cbn in Ef; now injection Ef). split; [intros ? []|auto].
      - rewrite <- Eks in *. destruct (follow_ok n ks ks e e1 c ks Ef) as (m & La & P & Q); auto.
        + exact (proj1 K c t ks It Lc Ek).
        + rewrite Eks. discriminate.
        + apply incl_refl.
        + split; [|exact Q]. intros k Ik. apply In_nth_error in Ik. destruct Ik as (i & Hi). destruct (P i k k Hi Hi) as (x & Hx & Lx & Dx). exists m, x. tauto. }
    destruct (IH e1 e' E Nr (fun x X => Inc x (or_intror X))) as (A & B).
    { intros c' ks' k I' Hk' Ik. rewrite P2; [|now apply (Other Lc c' ks')]. apply (Fresh c' ks'); auto. now right. }
    split.
    + intros c' ks' k [<-|I'] Hk' Ik; [|now apply (A c' ks')]. rewrite (Uniq _ Hk') in Ik. destruct (P1 k Ik) as (m & x & La & Lx & Len & Dx). exists m, x. repeat (split; [assumption|]).
      rewrite B; [|intros c'' ks'' I'' Hk'' Ik''; exact (Other Lc c'' ks'' k I'' Hk'' Ik'' Ik)]. rewrite Dx. now rewrite (Fresh c ks k (or_introl eq_refl) Hk Ik).
    + intros k N. rewrite B; [|intros c' ks' I' Hk'; apply (N c' ks'); auto; now right]. apply P2, (N c); auto. now left.
Qed.
Lemma key_equivs_ok n e : key_equivs n d = Ret e ->
  (forall c ks k, category d c -> looped d c -> has_key d c ks -> In k ks -> exists l, loops_above d c (length l) /\ links d k l /\ dget str_eqb k e = match l with [] => None | _ => Some l end)
  /\ (forall k, (forall c ks, category d c -> looped d c -> has_key d c ks -> ~ In k ks) -> dget str_eqb k e = None).
Proof.
  intros E. destruct (hierarchy_ok n (looped_cats d) [] e E (looped_cats_nodup d W) (incl_refl _)) as (A & B); [reflexivity|]. split.
  - intros c ks k Cc Lc Hk Ik. destruct (A c ks k) as (m & x & La & Lx & <- & Dx); auto; [now apply looped_cats_spec|]. exists x. repeat (split; [assumption|]). rewrite Dx. now destruct x.
  - intros k N. rewrite (B k); [reflexivity|]. intros c ks I. apply (looped_cats_spec d c W) in I. now apply N.
Qed.
End hier.
