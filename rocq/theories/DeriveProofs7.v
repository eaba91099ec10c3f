(** Items that are present, methods, defaults by index. *)
From Coq Require Import String Ascii List NArith ZArith Bool PeanoNat Lia Permutation.
From Verif Require Import PyBase PyFacts StarBlockModel StarBlockSpec StarBlockProofs StarBlockProofs2 StarBlockProofs3 StarBlockProofs4 LoopModel LoopSpec LoopProofs ValidateModel TreeModel DeriveModel DeriveSpec DeriveSpec2 DeriveProofs DeriveProofs3 DeriveProofs4 DeriveProofs5 DeriveProofs6 PullbackProofs.
Import ListNotations.
Open Scope nat_scope.

Lemma text_eq s v : py_eq v (VStr s) = true <-> v = VStr s.
Proof.
  destruct v; cbn [py_eq]; try (split; [discriminate|intros [=]]). destruct (str_eqb_spec s0 s) as [->|N]; split; auto; try discriminate. intros [= ->]. contradiction.
Qed.
Lemma vmem_text s l : vmem (VStr s) l = true <-> In (VStr s) l.
Proof.
  unfold vmem, mem. rewrite existsb_exists. split.
  - intros (x & I & E). assert (py_eq x (VStr s) = true) as E'. { destruct x; cbn [py_eq] in *; try discriminate E. destruct (str_eqb_spec s s0) as [->|]; [apply str_eqb_refl|discriminate]. } apply text_eq in E'. now subst.
  - intros I. exists (VStr s). split; auto. cbn [py_eq]. apply str_eqb_refl.
Qed.
Lemma known_spec v : unknown v = false <-> known_value v.
Proof.
  unfold unknown, known_value, question, full_stop, query, dot. destruct v; rewrite ?orb_false_iff; rewrite <- ?not_true_iff_false, ?vmem_text, ?text_eq; reflexivity.
Qed.
Lemma all_unknown_spec v : to_calculate v = true -> ~ not_all_unknown v.
Proof.
  unfold to_calculate, not_all_unknown. destruct v as [s| | |l|l|]; intros H N; try discriminate H.
  - apply text_eq in H. apply N. exact H.
  - destruct N as (x & I & N). rewrite forallb_forall in H. specialize (H x I). apply text_eq in H. contradiction.
  - destruct N as (x & I & N). rewrite forallb_forall in H. specialize (H x I). apply text_eq in H. contradiction.
Qed.
Lemma shown_get d cache D prov k v b : k <> u "saves" -> shown d prov b k v -> getitem d cache D prov k b = (b, Ok v).
Proof.
  intros S H. unfold getitem. destruct (str_eqb_spec k (u "saves")); [contradiction|]. assert (forall t, dget str_eqb (lower k) (dd_defs d) = Some t -> known_to d k) as DF by (intros t E; exists t; unfold def_of; now rewrite E).
  destruct H as [v f G ND|v f G P|v G|raw v G P K C|v G P K A]; rewrite G.
  - unfold dmem. destruct (dget str_eqb (lower k) (dd_defs d)) as [t|] eqn:E; [exfalso; eauto|reflexivity].
  - subst. destruct (negb _); [reflexivity|]. destruct f; reflexivity.
  - destruct (negb _); reflexivity.
  - subst. apply known_spec in K. unfold change_type in *.
    assert (py_eq raw query = false) as NQ. { destruct (py_eq raw query) eqn:Q; [|reflexivity]. apply text_eq in Q. subst. vm_compute in K. discriminate K. }
    rewrite NQ in *. destruct (def_of d k) as [t|] eqn:E; [|discriminate]. unfold def_of in E. unfold dmem. destruct (dget str_eqb (lower k) (dd_defs d)); [|discriminate]. cbn [negb]. rewrite K. cbn [andb negb]. unfold lift. now rewrite C.
  - subst. rewrite <- known_spec, not_false_iff_true in K. destruct (negb _); [reflexivity|]. rewrite K. cbn [andb negb]. destruct (to_calculate v) eqn:T; [|reflexivity]. exfalso. exact (all_unknown_spec _ T A).
Qed.
Lemma shown_has d prov b k v : shown d prov b k v -> has_key k b = true.
Proof. intros H. destruct (has_key k b) eqn:E; [reflexivity|]. apply absent_full in E. destruct H; congruence. Qed.
Theorem read_present n d cache prov k v b : k <> u "saves" -> shown d prov b k v -> read n d cache prov k b = (b, Ok v).
Proof. apply shown_get. Qed.
(** ** Methods *)
Lemma gives_run d cache D b p v : gives d b p v -> run d (getitem d cache D true) p b = (b, Ok v).
Proof.
  induction 1 as [v|n next w v S H _ IH|n next w v S H _ IH|n next v H _ IH|n next v _ IH]; cbn [run].
  - reflexivity.
  - now rewrite (bind_eq _ _ b b w) by now apply shown_get.
  - rewrite (shown_has _ _ _ _ _ H), (shown_get _ _ _ _ _ _ _ S H). exact IH.
  - rewrite H. exact IH.
  - now rewrite (bind_eq _ _ b b (has_or_alias d n b)) by reflexivity.
Qed.
Lemma methods_first d cache D b before p after v : (forall q, In q before -> gives d b q VNone) -> gives d b p v -> v <> VNone -> methods d (getitem d cache D true) (before ++ p :: after) b = (b, Ok v).
Proof.
  intros H G N. induction before as [|q before IH]; cbn [app methods].
  - rewrite (gives_run _ _ _ _ _ _ G). destruct v; try reflexivity. contradiction.
  - rewrite (gives_run _ _ _ _ _ _ (H q (or_introl eq_refl))). apply IH. intros x I. apply H. now right.
Qed.
Lemma methods_none d cache D b l : (forall q, In q l -> gives d b q VNone) -> methods d (getitem d cache D true) l b = (b, Ok VNone).
Proof. intros H. induction l as [|q l IH]; cbn [methods]; [reflexivity|]. rewrite (gives_run _ _ _ _ _ _ (H q (or_introl eq_refl))). apply IH. intros x I. apply H. now right. Qed.
Definition present (d : ddict) (cat : str) (b : block) : list str := filter (fun a => has_or_alias d a b) (cat_names d cat).
Lemma populate_settled d ask c cat ct key b : not_built d cat -> def_of d cat = Ret ct -> populate d ask c cat key b = (b, Ok None).
Proof.
  intros [M N] E. unfold populate.
  assert (forall l, (forall k t, In (k, t) l -> tget c_components t = None) -> component_cats d l = Ret []) as G.
  { induction l as [|[k t] l IH]; intros F; [reflexivity|]. cbn [component_cats]. rewrite (F k t) by now left. apply IH. intros k' t' I. apply (F k'). now right. }
  rewrite (lift_eq _ _ _ []). 2:{ unfold pulled_to. rewrite G by (intros k t I; now apply (N k)). reflexivity. }
  rewrite (lift_eq _ _ _ ct E). assert (tget c_type ct = None) as TN by (apply (N (lower cat)); unfold def_of in E; destruct (dget _ _ _) eqn:D; [injection E as ->; now apply (dget_In str_eqb str_eqb_spec) in D|discriminate]). rewrite TN.
  erewrite bind_eq by reflexivity. erewrite bind_eq by reflexivity. now rewrite M.
Qed.
Definition finish (d : ddict) (ask : bool -> str -> act value) (prov store allow : bool) (key cat : str) (b : block) (v : value) : block * dres value :=
  bind (match v with
        | VNone => if allow then bind (lift (def_of d key)) (fun t => default d (ask prov) key t) else ret (VNone, false)
        | _ => ret (v, false)
        end) (fun vd =>
  match fst vd with
  | VNone => err XDerivation
  | v =>
      bind (adjust d (ask prov) cat (present d cat b) v (snd vd)) (fun wl =>
      if negb (empty_list (fst wl)) && store then store_result d key cat (fst wl) (snd wl) (snd vd)
      else ret (fst wl))
  end) b.
Lemma body_settled d ask c prov store allow key cat ct b v : never_alias d key -> category_of d key = Ret cat -> def_of d cat = Ret ct -> settled d cat b ->
  methods d (ask true) (dd_methods d (lower key)) b = (b, Ok v) -> body d ask c prov store allow key b = finish d ask prov store allow key cat b v.
Proof.
  intros NA EC DC ST M. unfold body. rewrite (bind_eq _ _ b b (inr key)) by (apply resolve_self; now apply never_no_alias). cbv beta iota. rewrite (lift_eq _ _ _ cat EC). cbv zeta.
  rewrite (bind_eq _ _ b b (present d cat b)) by reflexivity. rewrite (bind_eq _ _ b b None).
  - cbv iota. rewrite (bind_eq _ _ b b (present d cat b)) by reflexivity. rewrite (bind_eq _ _ b b v M). reflexivity.
  - destruct (present d cat b) as [|x r] eqn:P; [|reflexivity]. destruct ST as [(k & I & H)|NB]; [|now apply (populate_settled d _ _ cat ct)].
    assert (In k []) as [] . rewrite <- P. apply filter_In. now split.
Qed.
Lemma saves_false key : key <> u "saves" -> str_eqb key (u "saves") = false.
Proof. intros N. destruct (str_eqb_spec key (u "saves")); [contradiction|reflexivity]. Qed.
Lemma adjust_method d ask cat ct v b : def_of d cat = Ret ct -> (is_loop ct = true -> exists k, In k (cat_names d cat) /\ has_or_alias d k b = true) ->
  adjust d ask cat (present d cat b) v false b = (b, Ok (v, is_loop ct)).
Proof.
  intros D P. unfold adjust. rewrite (lift_eq _ _ _ ct D). destruct (is_loop ct); [|reflexivity]. destruct (P eq_refl) as (k & I & H).
  destruct (present d cat b) as [|x r] eqn:E; [|reflexivity]. assert (In k []) as []. rewrite <- E. apply filter_In. now split.
Qed.
(** The value of the first method that has one. *)
Theorem method_read n d prov key cat ct b before p after v : key <> u "saves" -> has_key key b = false -> never_alias d key -> category_of d key = Ret cat -> def_of d cat = Ret ct -> settled d cat b ->
  (is_loop ct = true -> exists k, In k (cat_names d cat) /\ has_or_alias d k b = true) ->
  dd_methods d (lower key) = before ++ p :: after -> (forall q, In q before -> gives d b q VNone) -> gives d b p v -> v <> VNone -> read (S n) d false prov key b = (b, Ok v).
Proof.
  intros S K NA EC DC ST LP EM B G N. unfold read, getitem at 1. rewrite (saves_false _ S), (absent_full _ _ K). unfold attempts. rewrite derive_first.
  rewrite (body_settled _ _ _ _ _ _ _ cat ct b v); auto. 2:{ rewrite EM. now apply methods_first. }
  unfold finish. rewrite (bind_eq _ _ b b (v, false)) by (destruct v; try reflexivity; contradiction). cbn [fst snd].
  destruct v; try contradiction; (erewrite bind_eq; [|apply (adjust_method d _ cat ct _ b DC LP)]); cbn [fst snd]; rewrite andb_false_r; reflexivity.
Qed.
(** ** Defaults by index *)
Lemma index_entry index vals code v : entry index vals code v -> entry_at (map VStr (map lower index)) vals (VStr (lower code)) = Ret v.
Proof.
  intros (before & name & after & -> & E & B & NV). unfold entry_at. assert (index_of py_eq (VStr (lower code)) (map VStr (map lower (before ++ name :: after))) = Some (length before)) as ->; [|now rewrite NV].
  clear NV. induction before as [|x before IH]; cbn [app map index_of].
  - cbn [py_eq]. now rewrite E, str_eqb_refl.
  - cbn [py_eq]. destruct (str_eqb_spec (lower code) (lower x)) as [X|_]; [exfalso; apply (B x); [now left|now symmetry]|]. rewrite IH; [reflexivity|]. intros y I. apply B. now right.
Qed.
Lemma each_low l : each low (map VStr l) = Ret (map VStr (map lower l)).
Proof. induction l as [|x l IH]; [reflexivity|]. cbn [map each low obind]. now rewrite IH. Qed.
Section Index.
Variables (d : ddict) (prov : bool) (key cat idx : str) (t ct ti : table) (b : block) (index : list str) (vals : list value) (k : string).
Hypotheses (S : key <> u "saves") (K : has_key key b = false) (NA : never_alias d key) (EC : category_of d key = Ret cat) (DC : def_of d cat = Ret ct) (ST : settled d cat b) (D : def_of d key = Ret t)
  (M : forall q, In q (dd_methods d (lower key)) -> gives d b q VNone)
  (ND : tget (u "_enumeration.default") t = None) (DI : tget (u "_enumeration.def_index_id") t = Some (VStr idx)) (SI : idx <> u "saves")
  (IX : tget (u "_enumeration_default.index") t = Some (VList (map VStr index))) (VX : tget (u "_enumeration_default.value") t = Some (VList vals))
  (DX : def_of d idx = Ret ti) (TC : tget (u "_type.contents") ti = Some (VStr (u k))) (KC : In k ["Code"; "Name"; "Tag"]%string).
Lemma index_default D0 v r looped : idx <> [] -> shown d prov b idx v ->
  match v with VList l | VSL l => exists codes xs, l = map VStr codes /\ Forall2 (entry index vals) codes xs /\ change_type d key (VList xs) = Ret r /\ looped = false
             | _ => exists code x, v = VStr code /\ entry index vals code x /\ change_type d key x = Ret r /\ looped = true end ->
  default d (getitem d false D0 prov) key t b = (b, Ok (r, looped)).
Proof.
  intros NE SH H. unfold default. rewrite ND, DI. cbv zeta. change (truthy (VStr [])) with false. cbn iota. assert (truthy (VStr idx) = true) as -> by (destruct idx; [contradiction|reflexivity]).
  rewrite (lift_eq _ _ _ idx) by reflexivity. rewrite (lift_eq _ _ _ (VList (map VStr index))) by (unfold attr; now rewrite IX). rewrite (bind_eq _ _ b b v) by now apply shown_get.
  rewrite (lift_eq _ _ _ (VStr (u k))) by (rewrite DX; cbn [obind]; unfold attr; now rewrite TC).
  assert (existsb (veq_text (Some (VStr (u k)))) [u "Code"; u "Name"; u "Tag"] = true) as ->. { apply existsb_exists. exists (u k). split; [apply (in_map u) in KC; exact KC|]. cbn [veq_text]. apply str_eqb_refl. }
  rewrite (lift_eq _ _ _ (map VStr (map lower index))) by (cbn [iter obind]; apply each_low).
  assert (forall codes xs, Forall2 (entry index vals) codes xs -> each (entry_at (map VStr (map lower index)) vals) (map VStr (map lower codes)) = Ret xs) as EA.
  { intros codes xs F. induction F as [|c x codes xs E _ IH]; [reflexivity|]. cbn [map each]. rewrite (index_entry _ _ _ _ E). cbn [obind]. now rewrite IH. }
  assert (obind (attr t (u "_enumeration_default.value")) iter = Ret vals) as EV by (unfold attr; now rewrite VX).
  destruct v as [s| | |l|l|]; try (destruct H as (code & x & X & _); discriminate X).
  - destruct H as (code & x & X & E & C & ->). injection X as ->. rewrite (lift_eq _ _ _ r); [reflexivity|]. cbn [low obind]. rewrite EV. cbn [obind]. rewrite (index_entry _ _ _ _ E). exact C.
  - destruct H as (codes & xs & -> & F & C & ->). rewrite (lift_eq _ _ _ r); [reflexivity|]. rewrite each_low. cbn [obind]. rewrite EV. cbn [obind]. rewrite (EA _ _ F). exact C.
  - destruct H as (codes & xs & -> & F & C & ->). rewrite (lift_eq _ _ _ r); [reflexivity|]. rewrite each_low. cbn [obind]. rewrite EV. cbn [obind]. rewrite (EA _ _ F). exact C.
Qed.
Lemma index_read n r looped : (forall D0, default d (getitem d false D0 prov) key t b = (b, Ok (r, looped))) -> r <> VNone ->
  (is_loop ct = true -> looped = false /\ exists k, In k (cat_names d cat) /\ has_or_alias d k b = true) -> read (Datatypes.S n) d false prov key b = (b, Ok r).
Proof.
  intros DF N LP. unfold read, getitem at 1. rewrite (saves_false _ S), (absent_full _ _ K). unfold attempts. rewrite derive_first.
  rewrite (body_settled _ _ _ _ _ _ _ cat ct b VNone); auto. 2:{ now apply methods_none. }
  unfold finish at 1. rewrite (bind_eq _ _ b b (VNone, false)) by reflexivity. cbn [fst]. unfold err at 1. rewrite derive_first.
  rewrite (body_settled _ _ _ _ _ _ _ cat ct b VNone); auto. 2:{ now apply methods_none. }
  unfold finish at 1. rewrite (bind_eq _ _ b b (r, looped)). 2:{ rewrite (lift_eq _ _ _ t D). apply DF. } cbn [fst snd].
  assert (forall ask, adjust d ask cat (present d cat b) r looped b = (b, Ok (r, is_loop ct))) as AD.
  { intros ask. destruct (is_loop ct) eqn:L.
    - destruct (LP eq_refl) as [-> P]. rewrite <- L. apply adjust_method; auto.
    - unfold adjust. rewrite (lift_eq _ _ _ ct DC). now rewrite L. }
  destruct r; try contradiction; (erewrite bind_eq; [|apply AD]); cbn [fst snd]; rewrite andb_false_r; reflexivity.
Qed.
End Index.
(** ** Filling a category from the categories built from it *)
Theorem pushed_read n d cache prov key cat t b b1 s sources result w : has_key key b = false -> never_alias d key -> category_of d key = Ret cat -> key <> u "saves" ->
  (forall k, In k (cat_names d cat) -> has_or_alias d k b = false) -> pulled_to d cat = Ret (s :: sources) -> def_of d cat = Ret t -> tget (u "_category_construct_local.type") t = None ->
  (forall D, push d (getitem d cache D prov) cat (s :: sources) b = (b1, Ok result)) -> dget str_eqb key result = Some w -> read (S n) d cache prov key b = (b1, Ok w).
Proof.
  intros K NA EC S NP PT D TY CR G. unfold read, getitem at 1. rewrite (saves_false _ S), (absent_full _ _ K). unfold attempts. rewrite derive_first.
  assert (forall ask c st allow, (ask prov = getitem d cache (derive n d cache [key] allow prov) prov) -> body d ask c prov st allow key b = (b1, Ok w)) as B.
  { intros ask c st allow EA. unfold body. erewrite bind_eq by (apply resolve_self; now apply never_no_alias). cbv beta iota. rewrite (lift_eq _ _ _ cat EC). cbv beta iota zeta. erewrite bind_eq by reflexivity.
    rewrite (filter_none (fun a => has_or_alias d a b) (cat_names d cat) NP). rewrite (bind_eq _ _ b b1 (Some w)); [reflexivity|]. unfold populate. rewrite (lift_eq _ _ _ _ PT), (lift_eq _ _ _ t D).
    change c_type with (u "_category_construct_local.type"). rewrite TY. erewrite bind_eq by reflexivity. rewrite (bind_eq _ _ b b1 result) by (unfold attempt; now rewrite EA, CR).
    unfold dmem. rewrite G. destruct (dd_methods d (lower cat)); reflexivity. }
  rewrite B by reflexivity. reflexivity.
Qed.
(** Which categories: those with a component in this one. *)
Lemma maps_names : forall l ns, maps as_name l = Ret ns -> l = map VStr ns.
Proof. induction l as [|v l IH]; intros ns H; cbn [maps] in H; [injection H as <-; reflexivity|]. destruct v; cbn [as_name obind] in H; try discriminate H. destruct (maps as_name l) as [ms|]; [|discriminate H]. cbn [obind] in H. injection H as <-. cbn [map]. now rewrite (IH ms). Qed.
Lemma maps_In {X Y} (f : X -> outcome Y) : forall l ys, maps f l = Ret ys -> forall y, In y ys <-> exists x, In x l /\ f x = Ret y.
Proof.
  induction l as [|x l IH]; intros ys H y; cbn [maps] in H. { injection H as <-. split; [intros []|intros (? & [] & _)]. }
  destruct (f x) as [z|] eqn:E; [|discriminate]. cbn [obind] in H. destruct (maps f l) as [zs|]; [|discriminate]. cbn [obind] in H. injection H as <-. specialize (IH zs eq_refl y). cbn [In]. rewrite IH. split.
  - intros [<-|(x' & I & E')]; [exists x; split; auto|exists x'; split; auto].
  - intros (x' & [<-|I] & E'); [left; congruence|right; eauto].
Qed.
Theorem pulled_to_In d cat sources : pulled_to d cat = Ret sources -> (forall k t v, In (k, t) (dd_defs d) -> tget (u "_category_construct_local.components") t = Some v -> exists l, v = VList l) ->
  forall k, In k sources <-> exists t l c, In (k, t) (dd_defs d) /\ tget (u "_category_construct_local.components") t = Some (VList l) /\ In (VStr c) l /\ category_of d c = Ret cat.
Proof.
  unfold pulled_to. change (u "_category_construct_local.components") with c_components. generalize (dd_defs d) at 1 2 3 as l. intros l. revert sources. induction l as [|[k0 t] l IH]; intros sources E L k.
  - injection E as <-. split; [intros []|]. intros (t & l & c & [] & _).
  - cbn [component_cats] in E. assert (forall k t v, In (k, t) l -> tget c_components t = Some v -> exists l0, v = VList l0) as L' by (intros k1 t1 v1 I1 E1; apply (L k1 t1 v1); [now right|exact E1]).
    destruct (tget c_components t) as [v|] eqn:C.
    + destruct (L k0 t v (or_introl eq_refl) C) as (vs & ->). cbn [iter obind] in E. destruct (maps as_name vs) as [ns|] eqn:NS; [|discriminate]. cbn [obind] in E. destruct (maps (category_of d) ns) as [cs|] eqn:CS; [|discriminate]. cbn [obind] in E.
      destruct (component_cats d l) as [rest|]; [|discriminate]. cbn [obind] in E. specialize (IH _ eq_refl L' k). injection E as <-. cbn [filter snd]. pose proof (maps_In _ _ _ CS cat) as MI. apply maps_names in NS. subst vs.
      assert (mem str_eqb cat cs = true <-> exists c, In (VStr c) (map VStr ns) /\ category_of d c = Ret cat) as MC.
      { rewrite (mem_In _ str_eqb_spec), MI. split; intros (c & I & H); exists c; split; auto; [now apply in_map|]. apply in_map_iff in I as (x & [= ->] & I). exact I. }
      split.
      * intros I. destruct (mem str_eqb cat cs) eqn:M.
        { cbn [map fst In] in I. destruct I as [<-|I]; [destruct MC as [MC _]; destruct (MC eq_refl) as (c & I1 & I2); exists t, (map VStr ns), c; split; [now left|auto]|]. apply IH in I as (t' & l' & c & I1 & I2). exists t', l', c. split; [now right|exact I2]. }
        apply IH in I as (t' & l' & c & I1 & I2). exists t', l', c. split; [now right|exact I2].
      * intros (t' & l' & c & [I|I] & I1 & I2 & I3).
        { injection I as -> ->. rewrite C in I1. injection I1 as <-. destruct MC as [_ MC]. rewrite MC by eauto. now left. }
        assert (In k (map fst (filter (fun kc => mem str_eqb cat (snd kc)) rest))) as J by (apply IH; exists t', l', c; auto). destruct (mem str_eqb cat cs); [now right|exact J].
    + rewrite (IH _ E L' k). split; intros (t' & l' & c & I1 & I2); [exists t', l', c; split; [now right|exact I2]|]. destruct I1 as [I1|I1]; [injection I1 as -> ->; destruct I2; congruence|exists t', l', c; auto].
Qed.
