From Coq Require Import String Ascii List NArith PeanoNat Bool Lia.
From Verif Require Import PyBase PyFacts StarBlockModel ValidateModel TreeModel TreeSpec ImportModel ImportSpec ImportProofs ObtainModel ObtainSpec ObtainProofs.
Import ListNotations.
Open Scope nat_scope.

(** ** Attributes by heavy imports *)
Lemma merge_ok : forall new t t', strict_merge new t = Ret t' ->
  (forall k, dget str_eqb k t' = match dget str_eqb k t with Some v => Some v | None => dget str_eqb k new end)
  /\ (forall k v, dget str_eqb k t = Some v -> dget str_eqb k new = None).
Proof.
  induction new as [|[k v] new IH]; intros t t' E; cbn [strict_merge] in E.
  - injection E as <-. split; [|reflexivity]. intros k. cbn [dget]. now destruct (dget str_eqb k t).
  - destruct (dmem str_eqb k t) eqn:M; [discriminate|]. apply (dmem_false str_eqb str_eqb_spec) in M. apply (dget_None str_eqb str_eqb_spec) in M. destruct (IH _ _ E) as [H1 H2]. split.
    + intros x. rewrite H1, (dget_app str_eqb str_eqb_spec). cbn [dget]. destruct (str_eqb_spec x k) as [-> |N]; [now rewrite M|]. now destruct (dget str_eqb x t).
    + intros x w Hx. cbn [dget]. destruct (str_eqb_spec x k) as [-> |N]; [congruence|]. apply (H2 x w). rewrite (dget_app str_eqb str_eqb_spec). now rewrite Hx.
Qed.
Lemma merge_fails new t k v w : dget str_eqb k t = Some v -> dget str_eqb k new = Some w -> strict_merge new t = Raise StarErr.
Proof.
  revert t. induction new as [|[x y] new IH]; intros t Ht Hn; cbn [dget strict_merge] in *; [discriminate|]. destruct (str_eqb_spec k x) as [<-|N].
  - assert (dmem str_eqb k t = true) as ->; [|reflexivity]. unfold dmem. now rewrite Ht.
  - destruct (dmem str_eqb x t); [reflexivity|]. apply IH; [|exact Hn]. rewrite (dget_app str_eqb str_eqb_spec). now rewrite Ht.
Qed.
Lemma dget_map {A B} (f : str * A -> B) (d : list (str * A)) k : dget str_eqb k (map (fun kt => (fst kt, f kt)) d) = match dget str_eqb k d with Some t => Some (f (k, t)) | None => None end.
Proof. induction d as [|[x t] d IH]; cbn [map dget fst]; [reflexivity|]. destruct (str_eqb_spec k x) as [-> |N]; [reflexivity|exact IH]. Qed.
Lemma set_def_get k t d x : dget str_eqb x (set_def k t d) = if str_eqb x k then match dget str_eqb k d with Some _ => Some t | None => None end else dget str_eqb x d.
Proof.
  unfold set_def. induction d as [|[y s] d IH]; cbn [map dget fst]; [now destruct (str_eqb x k)|]. destruct (str_eqb_spec y k) as [Ey|N]; cbn [dget]; rewrite IH.
  - rewrite Ey. destruct (str_eqb_spec x k) as [Ex|Nx]; [now rewrite str_eqb_refl|reflexivity].
  - destruct (str_eqb_spec x y) as [Ex|N2].
    + subst x. now rewrite (eqb_neq str_eqb str_eqb_spec _ _ N).
    + destruct (str_eqb_spec x k) as [Ex|N3]; [|reflexivity]. subst x. now rewrite (eqb_neq str_eqb str_eqb_spec _ _ N2).
Qed.
Lemma dget_filter (d : table) k (p : str -> bool) : p k = true -> dget str_eqb k (filter (fun av => p (fst av)) d) = dget str_eqb k d.
Proof.
  intros H. induction d as [|[x t] d IH]; cbn [filter dget fst]; [reflexivity|]. destruct (str_eqb_spec k x) as [<-|N].
  - rewrite H. cbn [dget]. now rewrite str_eqb_refl.
  - destruct (p x); [cbn [dget]; rewrite (eqb_neq str_eqb str_eqb_spec _ _ N); exact IH|exact IH].
Qed.
Lemma drop_ok p d d' : drop_import p d = Ret d' -> forall k, (k <> lower p -> dget str_eqb k d' = dget str_eqb k d)
  /\ forall t, k = lower p -> dget str_eqb k d = Some t -> exists t', dget str_eqb k d' = Some t' /\ forall x, x <> u "_import.get" -> dget str_eqb x t' = dget str_eqb x t.
Proof.
  unfold drop_import. destruct (def_of d p) as [pt|]; [|discriminate]. cbn [obind]. intros E. injection E as <-. intros k.
  set (g := fun kt : str * table => if str_eqb (fst kt) (lower p) then filter (fun av => negb (str_eqb (fst av) (u "_import.get"))) (snd kt) else snd kt).
  match goal with |- context [dget str_eqb k (map ?F d)] => assert (map F d = map (fun kt => (fst kt, g kt)) d) as -> end.
  { apply map_ext. intros [x t]. unfold g. cbn [fst snd]. now destruct (str_eqb x (lower p)). }
  rewrite dget_map. unfold g. cbn [fst snd]. split.
  - intros N. rewrite (eqb_neq str_eqb str_eqb_spec _ _ N). now destruct (dget str_eqb k d).
  - intros t -> ->. rewrite str_eqb_refl. eexists. split; [reflexivity|]. intros x Hx. apply (dget_filter t x (fun y => negb (str_eqb y (u "_import.get")))). now rewrite (eqb_neq str_eqb str_eqb_spec _ _ Hx).
Qed.
Lemma blocks_get d k : dget str_eqb k (as_blocks d) = match dget str_eqb k d with Some t => Some (DicBlock t None []) | None => None end.
Proof. unfold as_blocks. apply (dget_map (fun kt => DicBlock (snd kt) None [])). Qed.

Section Heavy.
  Context (depth fuel : nat) (resolve : str -> str) (fetch : str -> outcome sdic) (cache : list (str * list (str * dicblock))) (p : str).
  (** The files hold no further imports, and the cache of the definition is what they
      hold. *)
  Definition plain (r : gref) : Prop := forall f, g_file r = Some f -> exists own, fetch (resolve f) = Ret (SDic own [] []) /\ dget str_eqb f cache = Some (as_blocks own).
  Definition cached (st : ostate) : Prop := forall uri d, dget str_eqb uri (o_cache st) = Some d -> fetch uri = Ret d.
  Lemma plain_get own key : s_get depth (S fuel) (SDic own [] []) key = match dget str_eqb (lower key) own with Some t => Ret t | None => Raise KeyErr end.
  Proof. cbn [s_get s_own s_cache s_imports lookup]. reflexivity. Qed.
  Definition current (st : ostate) (name : str) (x : option value) : Prop := exists t, dget str_eqb (lower p) (o_defs st) = Some t /\ tget name t = x.
  Lemma heavy_step r st st' pt : step depth (S fuel) true resolve fetch (p, r) st = Ret st' -> asks_mode r "contents" -> plain r -> cached st -> dget str_eqb (lower p) (o_defs st) = Some pt ->
    cached st' /\ (forall k, k <> lower p -> dget str_eqb k (o_defs st') = dget str_eqb k (o_defs st))
    /\ resolves cache (as_iref r)
    /\ exists pt', dget str_eqb (lower p) (o_defs st') = Some pt'
       /\ forall name, lower name <> u "_import.get" ->
          (forall v, gives cache (as_iref r) name v -> tget name pt = None /\ tget name pt' = Some v)
          /\ ((forall v, ~ gives cache (as_iref r) name v) -> tget name pt' = tget name pt).
  Proof.
    unfold step. intros E M P C D. destruct (g_file r) as [f|] eqn:Ef; [|discriminate]. destruct (P f Ef) as (own & Fo & Co).
    assert (exists st1, get_dic fetch (resolve f) st = Ret (SDic own [] [], st1) /\ o_defs st1 = o_defs st /\ cached st1) as (st1 & G & D1 & C1).
    { unfold get_dic. destruct (dget str_eqb (resolve f) (o_cache st)) as [d|] eqn:Ec; [pose proof (C _ _ Ec) as K; rewrite Fo in K; injection K as <-; exists st; auto|]. rewrite Fo. cbn [obind]. eexists. split; [reflexivity|]. split; [reflexivity|].
      intros uri d. cbn [o_cache]. rewrite (dget_app str_eqb str_eqb_spec). destruct (dget str_eqb uri (o_cache st)) as [d'|] eqn:Eu; [intros K; injection K as <-; now apply C|]. cbn [dget]. destruct (str_eqb_spec uri (resolve f)) as [-> |N]; [intros K; now injection K as <-|discriminate]. }
    rewrite G in E. cbn [obind] in E. destruct (g_save r) as [key|] eqn:Ek; [|discriminate]. rewrite plain_get in E.
    assert (mode_of r = u "contents") as M' by exact M. rewrite M' in E. assert (str_eqb (u "contents") (u "full") = false) as Z by reflexivity. rewrite Z in E. rewrite andb_false_r in E. cbn [andb] in E.
    destruct (dget str_eqb (lower key) own) as [t|] eqn:Et.
    - unfold heavy_import in E. rewrite str_eqb_refl in E. unfold def_of in E. rewrite D1, D in E. cbn [obind] in E. destruct (strict_merge t pt) as [mt|] eqn:Em; [|discriminate]. cbn [obind] in E. destruct (drop_import p (set_def (lower p) mt (o_defs st))) as [d|] eqn:Ed; [|discriminate]. cbn [obind] in E. injection E as <-. cbn [o_defs o_cache].
      destruct (merge_ok _ _ _ Em) as [H1 H2]. assert (target_of cache (as_iref r) (DicBlock t None [])) as T. { exists f, (as_blocks own), key. cbn [r_file r_save as_iref]. rewrite blocks_get, Et. auto. }
      split; [exact C1|]. split; [intros k Nk; rewrite (proj1 (drop_ok _ _ _ Ed k) Nk), set_def_get, (eqb_neq str_eqb str_eqb_spec _ _ Nk); reflexivity|].
      split; [exists f, (as_blocks own), key; cbn [r_file r_save as_iref]; rewrite blocks_get, Et; repeat split; auto; discriminate|].
      destruct (proj2 (drop_ok _ _ _ Ed (lower p)) mt eq_refl) as (pt' & Hp & Hx); [rewrite set_def_get, str_eqb_refl, D; reflexivity|]. exists pt'. split; [exact Hp|]. intros name Nn. split.
      + intros v (t' & T' & _ & Hv). rewrite <- (target_unique _ _ _ _ T T') in Hv. cbn [b_attrs] in Hv. assert (dget str_eqb (lower name) pt = None) as Np by (destruct (dget str_eqb (lower name) pt) as [w|] eqn:Ew; [rewrite (H2 _ _ Ew) in Hv; discriminate|reflexivity]). split; [exact Np|]. unfold tget. rewrite (Hx _ Nn), H1, Np. exact Hv.
      + intros N. unfold tget. rewrite (Hx _ Nn), H1. destruct (dget str_eqb (lower name) pt) as [w|]; [reflexivity|]. destruct (dget str_eqb (lower name) t) as [w|] eqn:Ew; [|reflexivity]. elim (N w). exists (DicBlock t None []). split; [exact T|]. split; [exact M|exact Ew].
    - destruct (str_eqb_spec (miss_of r) (u "Exit")) as [K|K]; [discriminate|]. injection E as <-. split; [exact C1|]. split; [intros k _; now rewrite D1|].
      assert (dget str_eqb (lower key) (as_blocks own) = None) as Bn by now rewrite blocks_get, Et.
      split; [exists f, (as_blocks own), key; cbn [r_file r_save as_iref]; repeat split; auto|]. exists pt. rewrite D1. split; [exact D|]. intros name _. split; [|reflexivity].
      intros v (t' & (f' & dic & k & K1 & K2 & K3 & K4) & _). cbn [r_file r_save as_iref] in *. rewrite Ef in K1. injection K1 as <-. rewrite Co in K2. injection K2 as <-. rewrite Ek in K3. injection K3 as <-. congruence.
  Qed.
  Lemma heavy_steps : forall refs st st' pt, steps depth (S fuel) true resolve fetch (map (pair p) refs) st = Ret st' -> (forall r, In r refs -> asks_mode r "contents" /\ plain r) -> cached st -> dget str_eqb (lower p) (o_defs st) = Some pt ->
    (forall k, k <> lower p -> dget str_eqb k (o_defs st') = dget str_eqb k (o_defs st))
    /\ (forall r, In r refs -> resolves cache (as_iref r))
    /\ exists pt', dget str_eqb (lower p) (o_defs st') = Some pt'
       /\ forall name, lower name <> u "_import.get" ->
          (forall v, tget name pt = Some v -> tget name pt' = Some v /\ forall r w, In r (map as_iref refs) -> ~ gives cache r name w)
          /\ (tget name pt = None -> (forall v, last_gives cache (map as_iref refs) name v -> tget name pt' = Some v)
               /\ ((forall r v, In r (map as_iref refs) -> ~ gives cache r name v) -> tget name pt' = None)).
  Proof.
    induction refs as [|r refs IH]; intros st st' pt E H C D; cbn [map steps] in E.
    - injection E as <-. split; [reflexivity|]. split; [intros r []|]. exists pt. split; [exact D|]. intros name _. split; [intros v Hv; split; [exact Hv|intros r w []]|]. intros N. split; [|now intros _]. intros v (l & r & l' & K & _). now destruct l.
    - destruct (step depth (S fuel) true resolve fetch (p, r) st) as [st1|] eqn:E1; [|discriminate]. cbn [obind] in E. destruct (H r (or_introl eq_refl)) as [M P]. destruct (heavy_step r st st1 pt E1 M P C D) as (C1 & O1 & R1 & pt1 & D1 & A1).
      destruct (IH st1 st' pt1 E (fun r' K => H r' (or_intror K)) C1 D1) as (O2 & R2 & pt2 & D2 & A2). split; [intros k Nk; rewrite (O2 k Nk); now apply O1|]. split; [intros r' [<-|K]; [exact R1|now apply R2]|]. exists pt2. split; [exact D2|].
      intros name Nn. destruct (A1 name Nn) as [B1 B2]. destruct (A2 name Nn) as [B3 B4]. destruct (gives_dec cache (as_iref r) name) as [(v & G)|N].
      + destruct (B1 v G) as [K1 K2]. destruct (B3 v K2) as [K3 K4]. split; [intros w Hw; congruence|]. intros _. split.
        * intros w (l & r0 & l' & Er & Gw & Nw). destruct l as [|x l]; cbn [map app] in Er; [injection Er as <- <-|injection Er as <- Er; exfalso; apply (K4 r0 w); [rewrite Er; apply in_or_app; right; now left|exact Gw]].
          rewrite K3. destruct G as (t1 & T1 & _ & V1), Gw as (t2 & T2 & _ & V2). rewrite (target_unique _ _ _ _ T1 T2) in V1. congruence.
        * intros K. elim (K (as_iref r) v); [now left|exact G].
      + pose proof (B2 N) as Eq. split.
        * intros v Hv. destruct (B3 v) as [K3 K4]; [now rewrite Eq|]. split; [exact K3|]. intros r' w [<-|K]; [apply N|now apply K4].
        * intros Nv. destruct B4 as [B4 B5]; [now rewrite Eq|]. split.
          -- intros v (l & r0 & l' & Er & Gw & Nw). destruct l as [|x l]; cbn [map app] in Er; [injection Er as <- <-; now elim (N v)|]. injection Er as <- Er. apply B4. exists l, r0, l'. auto.
          -- intros K. apply B5. intros r' v K'. apply K. now right.
  Qed.
End Heavy.
