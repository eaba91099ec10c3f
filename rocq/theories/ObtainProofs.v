From Coq Require Import String Ascii List NArith PeanoNat Bool Lia.
From Verif Require Import PyBase PyFacts StarBlockModel ValidateModel TreeModel TreeSpec TreeProofs ImportModel ImportSpec ImportProofs ObtainModel ObtainSpec.
Import ListNotations.
Open Scope nat_scope.

Scheme finds_mut := Minimality for finds Sort Prop with found_mut := Minimality for found Sort Prop.
Lemma smem_In x l : smem x l = true <-> In x l.
Proof. unfold smem. apply (mem_In str_eqb str_eqb_spec). Qed.
Lemma own_In {V} (d : list (str * V)) k t : NoDup (map fst d) -> In (k, t) d -> dget str_eqb k d = Some t.
Proof. apply (dget_In_NoDup str_eqb str_eqb_spec). Qed.
Lemma own_None {V} (d : list (str * V)) k : dget str_eqb k d = None <-> ~ In k (map fst d).
Proof. apply (dget_None str_eqb str_eqb_spec). Qed.
Lemma own_Some {V} (d : list (str * V)) k t : dget str_eqb k d = Some t -> In (k, t) d.
Proof. apply (dget_In str_eqb str_eqb_spec). Qed.
Lemma attr_text t a h : tget a t = Some (VStr h) -> attr_of t a = Ret h.
Proof. unfold attr_of. now intros ->. Qed.

Lemma under_filed d h key : well_formed d -> In (lower h) (map fst d) -> under d h key -> exists t, In (lower key, t) d.
Proof.
  intros W H U. assert (In (lower key) (map fst d)) as K.
  { induction U as [c|c a (t & Ha & _)|c p a (t & Hp & _) _ _ IH]; [exact H|rewrite (w_lower _ W _ _ Ha); now apply (in_map fst) in Ha|]. apply IH. rewrite (w_lower _ W _ _ Hp). now apply (in_map fst) in Hp. }
  apply in_map_iff in K. destruct K as ([k t] & <- & K). now exists t.
Qed.
(** s_get finds exactly what there is. *)
Lemma get_total depth : forall n d, proper depth n d ->
  forall key, (exists t, s_get depth n d key = Ret t /\ finds d key t /\ forall t', finds d key t' -> t' = t)
    \/ (s_get depth n d key = Raise KeyErr /\ forall t, ~ finds d key t).
Proof.
  induction n as [|n IH]; intros d P key; inversion P as [n' d' height W A Hd Nc Pc Pi]; subst; clear P.
  cbn [s_get]. destruct (dget str_eqb (lower key) (s_own d)) as [t|] eqn:E.
  - left. exists t. split; [reflexivity|]. split; [apply f_own; now apply own_Some|]. intros t' F. inversion F; subst.
    + match goal with H : In _ _ |- _ => apply own_In in H; [congruence|now apply (w_keys _ W)] end.
    + exfalso. match goal with H : ~ In _ _ |- _ => apply H end. apply own_Some in E. now apply (in_map fst) in E.
  - apply own_None in E.
    assert (forall l, (forall x, In x l -> In x (s_imports d)) ->
      (exists t, lookup depth (s_get depth n) (s_cache d) l key = Ret t /\ found (s_cache d) l key t /\ forall t', found (s_cache d) l key t' -> t' = t)
      \/ (lookup depth (s_get depth n) (s_cache d) l key = Raise KeyErr /\ forall t, ~ found (s_cache d) l key t)) as G.
    { induction l as [|[uri head] l IHl]; intros Hl; cbn [lookup].
      - right. split; [reflexivity|]. intros t F. inversion F.
      - destruct (Pi uri head (Hl _ (or_introl eq_refl))) as (one & ht & h & Hc & Hh & Ho & Hk). rewrite (dget_In_NoDup str_eqb str_eqb_spec uri one _ Nc Hc).
        assert (forall one', In (uri, one') (s_cache d) -> one' = one) as U1.
        { intros one' H. apply (dget_In_NoDup str_eqb str_eqb_spec) in H; [|exact Nc]. apply (dget_In_NoDup str_eqb str_eqb_spec) in Hc; [|exact Nc]. congruence. }
        pose proof (Pc uri one Hc) as Po. destruct (IH one Po head) as [(ht' & E1 & F1 & Uh)|[_ F1]]; [|now elim (F1 ht)].
        assert (ht' = ht) as -> by (symmetry; now apply Uh). rewrite E1. cbn [obind]. rewrite (attr_text ht a_object h Ho). cbn [obind].
        inversion Po as [n1 d1 height1 W1 A1 Hd1 N1 P1 P2]; subst. destruct (all_children_total depth (s_own one) h height1 W1 A1 (Hd1 _)) as (ks & Ek). rewrite Ek. cbn [obind].
        pose proof (all_children_under depth (s_own one) h ks W1 Ek key) as Hu. destruct (smem key ks) eqn:M.
        + apply smem_In in M. apply Hu in M. assert (exists t, finds one key t) as (t & Ft) by (destruct (under_filed _ _ _ W1 Hk M) as (t & Ht); exists t; now apply f_own).
          destruct (IH one Po key) as [(t1 & E2 & F2 & U2)|[_ F2]]; [|now elim (F2 t)]. left. exists t1. split; [exact E2|]. split; [now apply (f_here _ uri head l key one ht h)|].
          intros t' F. inversion F; subst.
          * match goal with H : In (uri, ?o) _ |- _ => pose proof (U1 o H); subst o end. now apply U2.
          * match goal with H : In (uri, ?o) _ |- _ => pose proof (U1 o H); subst o end. match goal with H : finds one head ?x |- _ => pose proof (Uh x H); subst x end. congruence.
        + assert (~ under (s_own one) h key) as Nu. { intros K. apply Hu in K. apply smem_In in K. congruence. }
          assert (forall t', found (s_cache d) ((uri, head) :: l) key t' -> found (s_cache d) l key t') as Inv.
          { intros t' F. inversion F; subst.
            - match goal with H : In (uri, ?o) _ |- _ => pose proof (U1 o H); subst o end. match goal with H : finds one head ?x |- _ => pose proof (Uh x H); subst x end.
              match goal with H : tget _ ht = Some (VStr ?x) |- _ => assert (x = h) by congruence; subst x end. contradiction.
            - assumption. }
          destruct IHl as [(t & E2 & F2 & U2)|[E2 F2]]; [intros x Hx; apply Hl; now right| |].
          * left. exists t. split; [exact E2|]. split; [now apply (f_next _ uri head l key one ht h)|]. intros t' F. apply U2. now apply Inv.
          * right. split; [exact E2|]. intros t F. apply (F2 t). now apply Inv. }
    destruct (G (s_imports d) (fun x H => H)) as [(t & E1 & F & U)|[E1 F]].
    + left. exists t. split; [exact E1|]. split; [now apply f_import|]. intros t' F'. inversion F'; subst.
      * exfalso. apply E. match goal with H : In _ (s_own d) |- _ => apply (in_map fst) in H; exact H end.
      * now apply U.
    + right. split; [exact E1|]. intros t F'. inversion F'; subst.
      * apply E. match goal with H : In _ (s_own d) |- _ => apply (in_map fst) in H; exact H end.
      * now apply (F t).
Qed.
Lemma get_finds depth n d key t : proper depth n d -> (s_get depth n d key = Ret t <-> finds d key t).
Proof.
  intros P. destruct (get_total depth n d P key) as [(t' & E & F & U)|[E F]]; rewrite E; split; intros H.
  - now injection H as <-. - f_equal. symmetry. now apply U. - discriminate. - now elim (F t).
Qed.
Lemma get_absent depth n d key : proper depth n d -> (s_get depth n d key = Raise KeyErr <-> forall t, ~ finds d key t).
Proof.
  intros P. destruct (get_total depth n d P key) as [(t' & E & F & U)|[E F]]; rewrite E; split; intros H; [discriminate|now elim (H t')|exact F|reflexivity].
Qed.

(** ** The entries *)
Lemma frames_selected mode w p r : In (p, r) (frames mode w) <-> selected mode w p r.
Proof.
  unfold frames, selected. rewrite in_flat_map. split.
  - intros ([p' refs] & H1 & H2). cbn [fst snd] in H2. apply in_map_iff in H2. destruct H2 as (r' & E & H2). injection E as -> ->. apply filter_In in H2. destruct H2 as [H2 H3]. exists refs. split; [exact H1|]. split; [exact H2|].
    apply orb_prop in H3. destruct H3 as [H3|H3]; [left; now destruct (str_eqb_spec mode (u "All"))|right]. unfold mode_of, with_default in H3. now destruct (str_eqb_spec (lower match g_mode r with Some v => v | None => u "Contents" end) (lower mode)).
  - intros (refs & H1 & H2 & H3). exists (p, refs). split; [exact H1|]. cbn [fst snd]. apply in_map. apply filter_In. split; [exact H2|]. destruct H3 as [-> |H3]; [now rewrite str_eqb_refl|]. apply orb_true_iff. right. unfold mode_of, with_default. rewrite H3. apply str_eqb_refl.
Qed.

(** ** Which files are read *)
Definition reads_ok (st : ostate) : Prop := NoDup (o_read st) /\ (forall x, In x (map fst (o_cache st)) <-> In x (o_read st)).
Lemma get_dic_ok fetch uri st d st1 : get_dic fetch uri st = Ret (d, st1) -> reads_ok st ->
  reads_ok st1 /\ o_defs st1 = o_defs st /\ o_imports st1 = o_imports st /\ o_contents st1 = o_contents st
  /\ (forall x, In x (o_read st1) <-> In x (o_read st) \/ x = uri) /\ (~ In uri (o_read st) -> fetch uri = Ret d)
  /\ (dget str_eqb uri (o_cache st) = Some d \/ fetch uri = Ret d) /\ dget str_eqb uri (o_cache st1) = Some d.
Proof.
  unfold get_dic. intros E [N C]. destruct (dget str_eqb uri (o_cache st)) as [d'|] eqn:G.
  - injection E as <- <-. pose proof (own_Some _ _ _ G) as Hi. apply (in_map fst) in Hi. apply C in Hi. split; [now split|]. repeat split; auto; [intros [H| ->]; [exact H|exact Hi]|intros K; contradiction].
  - apply own_None in G. destruct (fetch uri) as [d0|] eqn:F; [|discriminate]. cbn [obind] in E. injection E as <- <-. cbn [o_defs o_imports o_contents o_read o_cache]. split.
    + split; cbn [o_read o_cache].
      * apply NoDup_app_iff. split; [exact N|]. split; [repeat constructor; intros []|]. intros x Hx [<-|[]]. apply G. now apply C.
      * intros x. rewrite map_app, !in_app_iff, C. reflexivity.
    + repeat split; auto; [intros H; apply in_app_or in H; destruct H as [H|[H|[]]]; auto|intros [H| ->]; apply in_or_app; [now left|right; now left]|].
      rewrite (dget_app str_eqb str_eqb_spec). assert (dget str_eqb uri (o_cache st) = None) as -> by now apply own_None. cbn [dget]. now rewrite str_eqb_refl.
Qed.

Lemma dset_keys {V} (k : str) (v : V) d : In k (map fst d) -> forall x, In x (map fst (dset str_eqb k v d)) <-> In x (map fst d).
Proof.
  intros H x. pose proof (dkeys_dset str_eqb str_eqb_spec k v d) as E. change (map fst (dset str_eqb k v d)) with (dkeys (dset str_eqb k v d)). rewrite E. assert (dmem str_eqb k d = true) as -> by now apply (dmem_In str_eqb str_eqb_spec). reflexivity.
Qed.
Lemma heavy_frame depth parent from target key mode st st' : heavy_import depth parent from target key mode st = Ret st' -> o_cache st' = o_cache st /\ o_read st' = o_read st /\ o_imports st' = o_imports st.
Proof.
  unfold heavy_import. destruct (str_eqb mode (u "contents")).
  - destruct (def_of (o_defs st) parent) as [pt|]; [|discriminate]. cbn [obind]. destruct (strict_merge target pt) as [t|]; [|discriminate]. cbn [obind]. destruct (drop_import parent _) as [d|]; [|discriminate]. cbn [obind]. intros E. now injection E as <-.
  - destruct (str_eqb mode (u "full")); [|intros E; now injection E as <-]. destruct (full_import _ _ _ _ _) as [d|]; [|discriminate]. cbn [obind]. intros E. now injection E as <-.
Qed.
Lemma light_frame parent uri file from target key mode st st' : light_import parent uri file from target key mode st = Ret st' -> In uri (map fst (o_cache st)) ->
  o_defs st' = o_defs st /\ o_read st' = o_read st /\ (forall x, In x (map fst (o_cache st')) <-> In x (map fst (o_cache st))).
Proof.
  unfold light_import. intros E Hu. destruct (str_eqb mode (u "contents")).
  - destruct (def_of (o_defs st) parent) as [pt|]; [|discriminate]. cbn [obind] in E. injection E as <-. repeat split; auto.
  - destruct (str_eqb mode (u "full")); [|injection E as <-; repeat split; auto]. destruct (def_of (o_defs st) parent) as [pt|]; [|discriminate]. cbn [obind] in E. destruct (attr_of target a_defid) as [i|]; [|discriminate]. cbn [obind] in E. destruct (attr_of pt a_object) as [m|]; [|discriminate]. cbn [obind] in E. destruct (attr_of target a_object) as [h|]; [|discriminate]. cbn [obind] in E. injection E as <-. cbn [o_defs o_read o_cache]. split; [reflexivity|]. split; [reflexivity|]. now apply dset_keys.
Qed.
Section Steps.
  Context (depth fuel : nat) (heavy : bool) (resolve : str -> str) (fetch : str -> outcome sdic).
  Lemma step_reads p r st st' : step depth fuel heavy resolve fetch (p, r) st = Ret st' -> reads_ok st ->
    reads_ok st' /\ (heavy = false -> o_defs st' = o_defs st) /\ exists f, g_file r = Some f /\ forall x, In x (o_read st') <-> In x (o_read st) \/ x = resolve f.
  Proof.
    unfold step. intros E R. destruct (g_file r) as [f|]; [|discriminate]. destruct (get_dic fetch (resolve f) st) as [[from st1]|] eqn:G; [|discriminate]. cbn [obind] in E.
    destruct (get_dic_ok _ _ _ _ _ G R) as (R1 & D1 & I1 & C1 & X1 & _ & _ & Gc). assert (In (resolve f) (map fst (o_cache st1))) as Hc by (apply own_Some in Gc; apply (in_map fst) in Gc; exact Gc).
    assert (forall st2, o_read st2 = o_read st1 -> (forall x, In x (map fst (o_cache st2)) <-> In x (map fst (o_cache st1))) -> (heavy = false -> o_defs st2 = o_defs st1) -> reads_ok st2 /\ (heavy = false -> o_defs st2 = o_defs st) /\ exists f0, Some f = Some f0 /\ forall x, In x (o_read st2) <-> In x (o_read st) \/ x = resolve f0) as Fin.
    { intros st2 E1 E2 E3. split; [|split; [intros K; rewrite (E3 K); exact D1|exists f; split; [reflexivity|rewrite E1; exact X1]]]. destruct R1 as [N1 C2]. split; rewrite E1; [exact N1|]. intros x. rewrite E2. apply C2. }
    destruct (g_save r) as [key|]; [|discriminate]. destruct (s_get depth fuel from key) as [t|e].
    - destruct (dmem str_eqb (lower key) (o_defs st1) && str_eqb (mode_of r) (u "full") && str_eqb (dupl_of r) (u "Exit")); [discriminate|].
      destruct (dmem str_eqb (lower key) (o_defs st1) && str_eqb (mode_of r) (u "full") && str_eqb (dupl_of r) (u "Ignore")); [injection E as <-; now apply Fin|]. destruct heavy.
      + destruct (heavy_frame _ _ _ _ _ _ _ _ E) as (H1 & H2 & _). apply Fin; [exact H2|intros x; now rewrite H1|discriminate].
      + destruct (light_frame _ _ _ _ _ _ _ _ _ E Hc) as (H1 & H2 & H3). now apply Fin.
    - destruct e; try discriminate. destruct (str_eqb (miss_of r) (u "Exit")); [discriminate|]. injection E as <-. now apply Fin.
  Qed.
  Lemma steps_reads : forall l st st', steps depth fuel heavy resolve fetch l st = Ret st' -> reads_ok st ->
    reads_ok st' /\ (heavy = false -> o_defs st' = o_defs st) /\ forall x, In x (o_read st') <-> In x (o_read st) \/ exists p r f, In (p, r) l /\ g_file r = Some f /\ x = resolve f.
  Proof.
    induction l as [|[p r] l IH]; intros st st' E R; cbn [steps] in E.
    - injection E as <-. split; [exact R|]. split; [reflexivity|]. intros x. split; [now left|]. intros [H|(p & r & f & [] & _)]. exact H.
    - destruct (step depth fuel heavy resolve fetch (p, r) st) as [st1|] eqn:E1; [|discriminate]. cbn [obind] in E. destruct (step_reads p r st st1 E1 R) as (R1 & D1 & f & Hf & X1). destruct (IH st1 st' E R1) as (R2 & D2 & X2). split; [exact R2|]. split; [intros K; rewrite (D2 K); exact (D1 K)|].
      intros x. rewrite X2, X1. split.
      + intros [[H| ->]|(p' & r' & f' & H1 & H2 & H3)]; [now left|right; exists p, r, f; split; [now left|auto]|right; exists p', r', f'; split; [now right|auto]].
      + intros [H|(p' & r' & f' & [K|K] & H2 & H3)]; [now left; left| |right; exists p', r', f'; auto]. injection K as <- <-. left. right. congruence.
  Qed.
  Lemma hand_get st uri from : at_hand fetch st uri from -> exists st1, get_dic fetch uri st = Ret (from, st1) /\ o_defs st1 = o_defs st /\ o_imports st1 = o_imports st /\ o_contents st1 = o_contents st.
  Proof.
    unfold get_dic. intros [E|[N E]]; [rewrite E; exists st; auto|]. apply own_None in N. rewrite N, E. cbn [obind]. eexists. split; [reflexivity|]. auto.
  Qed.
  Lemma step_absent p r st f key from : g_file r = Some f -> g_save r = Some key -> at_hand fetch st (resolve f) from -> proper depth fuel from -> (forall t, ~ finds from key t) ->
    if str_eqb (miss_of r) (u "Exit") then step depth fuel heavy resolve fetch (p, r) st = Raise CifErr
    else exists st', step depth fuel heavy resolve fetch (p, r) st = Ret st' /\ same st st'.
  Proof.
    intros Ef Ek H P N. destruct (hand_get st _ _ H) as (st1 & G & D). unfold step. rewrite Ef, G. cbn [obind]. rewrite Ek. apply (get_absent depth fuel from key P) in N. rewrite N. destruct (str_eqb (miss_of r) (u "Exit")); [reflexivity|]. exists st1. split; [reflexivity|exact D].
  Qed.
  Lemma step_dupl p r st f key from t : g_file r = Some f -> g_save r = Some key -> at_hand fetch st (resolve f) from -> proper depth fuel from -> finds from key t -> In (lower key) (map fst (o_defs st)) -> mode_of r = u "full" ->
    (dupl_of r = u "Exit" -> step depth fuel heavy resolve fetch (p, r) st = Raise CifErr)
    /\ (dupl_of r = u "Ignore" -> exists st', step depth fuel heavy resolve fetch (p, r) st = Ret st' /\ same st st').
  Proof.
    intros Ef Ek H P N I M. destruct (hand_get st _ _ H) as (st1 & G & D). unfold step. rewrite Ef, G. cbn [obind]. rewrite Ek. apply (get_finds depth fuel from key t P) in N. rewrite N, M. apply (dmem_In str_eqb str_eqb_spec) in I. rewrite (proj1 D), I. split; intros ->; rewrite str_eqb_refl; cbn [andb]; [reflexivity|].
    assert (str_eqb (u "Ignore") (u "Exit") = false) as -> by reflexivity. rewrite str_eqb_refl. exists st1. now split.
  Qed.
End Steps.
Section Light.
  Context (depth fuel : nat) (resolve : str -> str) (fetch : str -> outcome sdic).
  Lemma step_contents p r st f key from t : g_file r = Some f -> g_save r = Some key -> at_hand fetch st (resolve f) from -> proper depth fuel from -> finds from key t -> mode_of r = u "contents" -> In (lower p) (map fst (o_defs st)) ->
    exists st', step depth fuel false resolve fetch (p, r) st = Ret st' /\ o_defs st' = o_defs st /\ o_imports st' = o_imports st /\ o_contents st' = o_contents st ++ [(p, f)].
  Proof.
    intros Ef Ek H P N M I. destruct (hand_get fetch st _ _ H) as (st1 & G & D1 & D2 & D3). unfold step. rewrite Ef, G. cbn [obind]. rewrite Ek. apply (get_finds depth fuel from key t P) in N. rewrite N, M. assert (str_eqb (u "contents") (u "full") = false) as -> by reflexivity. rewrite andb_false_r. cbn [andb].
    unfold light_import. rewrite str_eqb_refl. unfold def_of. rewrite D1. destruct (dget str_eqb (lower p) (o_defs st)) as [pt|] eqn:E; [|now apply own_None in E]. cbn [obind]. eexists. split; [reflexivity|]. cbn. now rewrite D2, D3.
  Qed.
  (** A whole dictionary becomes the first one that is searched. *)
  Lemma step_full p r st f key from t pt i m h : g_file r = Some f -> g_save r = Some key -> at_hand fetch st (resolve f) from -> proper depth fuel from -> finds from key t -> mode_of r = u "full" ->
    (In (lower key) (map fst (o_defs st)) -> dupl_of r <> u "Exit" /\ dupl_of r <> u "Ignore") -> dget str_eqb (lower p) (o_defs st) = Some pt ->
    tget (u "_definition.id") t = Some (VStr i) -> tget (u "_name.object_id") pt = Some (VStr m) -> tget (u "_name.object_id") t = Some (VStr h) ->
    exists st', step depth fuel false resolve fetch (p, r) st = Ret st' /\ o_defs st' = o_defs st /\ o_contents st' = o_contents st /\ o_imports st' = (resolve f, i) :: o_imports st.
  Proof.
    intros Ef Ek H P N M I Ep Ei Em Eh. destruct (hand_get fetch st _ _ H) as (st1 & G & D1 & D2 & D3). unfold step. rewrite Ef, G. cbn [obind]. rewrite Ek. apply (get_finds depth fuel from key t P) in N. rewrite N, M, str_eqb_refl, D1. rewrite !andb_true_r.
    assert (forall b x, (dmem str_eqb (lower key) (o_defs st) = true -> x <> u b) -> forall X (a c : X), (dupl_of r = x) -> (if dmem str_eqb (lower key) (o_defs st) && str_eqb (dupl_of r) (u b) then a else c) = c) as Sk.
    { intros b x Hx X a c <-. destruct (dmem str_eqb (lower key) (o_defs st)); [|reflexivity]. destruct (str_eqb_spec (dupl_of r) (u b)) as [K|K]; [elim (Hx eq_refl); exact K|reflexivity]. }
    assert (dmem str_eqb (lower key) (o_defs st) = true -> dupl_of r <> u "Exit" /\ dupl_of r <> u "Ignore") as I' by (intros K; apply I; now apply (dmem_In str_eqb str_eqb_spec)).
    rewrite (Sk "Exit"%string (dupl_of r)); [|intros K; now apply I'|reflexivity]. rewrite (Sk "Ignore"%string (dupl_of r)); [|intros K; now apply I'|reflexivity].
    unfold light_import. assert (str_eqb (u "full") (u "contents") = false) as -> by reflexivity. rewrite str_eqb_refl. unfold def_of. rewrite D1, Ep. cbn [obind]. rewrite (attr_text t a_defid i Ei). cbn [obind]. rewrite (attr_text pt a_object m Em). cbn [obind]. rewrite (attr_text t a_object h Eh). cbn [obind]. eexists. split; [reflexivity|]. cbn. now rewrite D2, D3.
  Qed.
End Light.
