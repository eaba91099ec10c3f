(** Single-item checks: enumerations, ranges, types, s.u. *)
From Coq Require Import String Ascii List NArith ZArith QArith Bool Lia Setoid.
From Verif Require Import PyBase PyFacts StarBlockModel LoopModel LoopSpec LoopProofs RegexModel RegexFacts NumberModel NumberSpec NumberProofs NumberProofs2 NumberProofs3
  ValidateModel ValidateSpec.
Import ListNotations.
Open Scope nat_scope.

Lemma filterM_ret {A} (f : A -> outcome bool) (p : A -> bool) l : (forall x, In x l -> f x = Ret (p x)) -> filterM f l = Ret (filter p l).
Proof.
  induction l as [|x l IH]; intros H; [reflexivity|]. cbn [filterM filter]. rewrite (H x (or_introl eq_refl)). cbn [obind].
  rewrite IH by (intros y Hy; apply H; now right). reflexivity.
Qed.
Lemma offenders_filter {A} (P : A -> Prop) (p : A -> bool) l : (forall x, In x l -> p x = true <-> P x) -> offenders P l (filter (fun x => negb (p x)) l).
Proof.
  induction l as [|x l IH]; intros H; cbn [filter]; [constructor|]. assert (offenders P l (filter (fun x => negb (p x)) l)) as R by (apply IH; intros y Hy; apply H; now right).
  pose proof (H x (or_introl eq_refl)) as Hx. destruct (p x); cbn [negb]; [apply of_good; [now apply Hx|exact R]|apply of_bad; [intros K; apply Hx in K; discriminate|exact R]].
Qed.
Lemma decide_verdict P vs bad : offenders P vs bad -> verdict P vs (decide bad) [].
Proof. intros H. exists bad. split; [exact H|]. unfold decide. destruct bad; [split; [reflexivity|intros K; now elim K]|split; [discriminate|reflexivity]]. Qed.
Lemma offenders_nil {A} (P : A -> Prop) l : offenders P l [] -> Forall P l.
Proof. remember [] as b. intros H. revert Heqb. induction H; intros E; [constructor|discriminate|constructor; auto]. Qed.
Lemma offenders_unique {A} (P : A -> Prop) l b b' : offenders P l b -> offenders P l b' -> b = b'.
Proof. intros H. revert b'. induction H; intros b' H'; inversion H'; subst; try contradiction; [reflexivity|f_equal; auto|auto]. Qed.
Lemma verdict_true P vs r names : verdict P vs r names -> (r = RTrue <-> Forall P vs).
Proof.
  intros (bad & O & T & F). split.
  - intros ->. destruct bad as [|x b]; [now apply offenders_nil|]. specialize (F ltac:(discriminate)). discriminate.
  - intros H. apply T. assert (offenders P vs []) as O' by (clear -H; induction H; [constructor|now apply of_good]). now apply (offenders_unique P vs).
Qed.

Lemma py_eq_text v s : py_eq v (VStr s) = true <-> v = VStr s.
Proof. rewrite py_eq_spec. split; [intros H; inversion H; subst; [reflexivity|intuition discriminate]|intros ->; constructor]. Qed.
Lemma py_eq_dot v : py_eq v dot = true <-> v = VStr [46%N].
Proof. apply py_eq_text. Qed.
Lemma py_eq_query v : py_eq v query = true <-> v = VStr [63%N].
Proof. apply py_eq_text. Qed.
Lemma vmem_spec v l : vmem v l = true <-> exists w, In w l /\ same_value v w.
Proof.
  unfold vmem. rewrite existsb_exists. split; intros (w & H1 & H2); exists w; (split; [exact H1|]); now apply py_eq_spec.
Qed.
Lemma same_text v s : same_value v (VStr s) <-> v = VStr s.
Proof. rewrite <- py_eq_spec. apply py_eq_text. Qed.
Lemma vmem_listed v l : vmem v (l ++ [dot; query]) = true <-> listed l v.
Proof.
  rewrite vmem_spec. unfold listed, unknown. split.
  - intros (w & Hw & S). apply in_app_or in Hw. destruct Hw as [Hw|[<-|[<-|[]]]]; [right; now exists w|left; right; now apply same_text|left; left; now apply same_text].
  - intros [[->| ->]|(w & Hw & S)].
    + exists query. split; [apply in_or_app; right; right; now left|constructor].
    + exists dot. split; [apply in_or_app; right; now left|constructor].
    + exists w. split; [apply in_or_app; now left|exact S].
Qed.
Lemma listify_held v vs : held v vs -> listify v = Ret vs.
Proof. intros []; reflexivity. Qed.
Lemma value_list_held v vs : held v vs -> value_list (Some v) = Ret vs.
Proof. intros []; reflexivity. Qed.
Lemma dic_get_dget d name def : dic_get d name = Ret def <-> dget str_eqb (lower name) (d_defs d) = Some def.
Proof. unfold dic_get. destruct (dget _ _ _); split; intros H; inversion H; reflexivity. Qed.

(** ** Enumerations *)
Theorem enum_ok d name v def l enum vs : dic_get d name = Ret def -> tget (d_enum_spec d) def = Some enum -> (enum = VList l \/ enum = VSL l) -> held v vs ->
  exists r, validate_item_enum d name v = Ret r /\ verdict (listed l) vs r [].
Proof.
  intros Hd He Hl Hv. unfold validate_item_enum. apply dic_get_dget in Hd. rewrite Hd, He.
  assert (exists r, obind (listify v) (fun vs => Ret (decide (filter (fun a => negb (vmem a (l ++ [dot; query]))) vs))) = Ret r /\ verdict (listed l) vs r []) as G.
  { rewrite (listify_held _ _ Hv). cbn [obind]. eexists. split; [reflexivity|]. apply decide_verdict. apply offenders_filter. intros x _. apply vmem_listed. }
  destruct Hl as [->| ->]; exact G.
Qed.
Theorem enum_none d name v : (forall def, dic_get d name = Ret def -> tget (d_enum_spec d) def = None) -> validate_item_enum d name v = Ret RNone.
Proof.
  intros H. unfold validate_item_enum. destruct (dget str_eqb (lower name) (d_defs d)) as [def|] eqn:E; [|reflexivity]. rewrite H; [reflexivity|]. now apply dic_get_dget.
Qed.

(** ** Ranges *)
Lemma Qltb_spec a b : Qltb a b = true <-> (a < b)%Q.
Proof.
  unfold Qltb. rewrite negb_true_iff. split.
  - intros H. apply Qnot_le_lt. intros K. apply Qle_bool_iff in K. rewrite K in H. discriminate.
  - intros H. destruct (Qle_bool b a) eqn:E; [|reflexivity]. apply Qle_bool_iff in E. exfalso. now apply (Qlt_not_le a b).
Qed.
Lemma below_self x : (x - 1 < x)%Q.
Proof. rewrite <- (Qplus_0_r x) at 2. unfold Qminus. rewrite Qplus_comm, (Qplus_comm x 0). now apply Qplus_lt_l. Qed.
Lemma above_self x : (x < x + 1)%Q.
Proof. rewrite <- (Qplus_0_r x) at 1. rewrite Qplus_comm, (Qplus_comm x 1). now apply Qplus_lt_l. Qed.
Lemma in_ranges_ok ranges x : in_ranges ranges x = true <-> inside ranges x.
Proof.
  induction ranges as [|[lo up] r IH]; cbn [in_ranges].
  - split; [discriminate|]. intros (a & b & [] & _).
  - set (l := match lo with Some q => q | None => (x - 1)%Q end). set (p := match up with Some q => q | None => (x + 1)%Q end).
    assert (Qltb l x && Qltb x p = true <-> above lo x /\ below x up) as A.
    { rewrite andb_true_iff, !Qltb_spec. unfold above, below. subst l p. destruct lo, up; try tauto; split; intros [? ?]; split; auto using below_self, above_self. }
    assert (Qeq_bool p l && Qeq_bool x p = true <-> exists a b, lo = Some a /\ up = Some b /\ (a == x)%Q /\ (b == x)%Q) as B.
    { rewrite andb_true_iff, !Qeq_bool_iff. subst l p. split.
      - intros [E1 E2]. destruct up as [b|]; [|exfalso; pose proof (above_self x) as K; rewrite <- E2 in K; now apply Qlt_irrefl in K].
        destruct lo as [a|]; [|exfalso; pose proof (below_self x) as K; rewrite <- E1, <- E2 in K; now apply Qlt_irrefl in K].
        exists a, b. split; [reflexivity|]. split; [reflexivity|]. split; [now rewrite <- E1, <- E2|now symmetry].
      - intros (a & b & -> & -> & E1 & E2). split; [now rewrite E1|now symmetry]. }
    destruct (Qltb l x && Qltb x p).
    { split; [intros _|reflexivity]. exists lo, up. split; [now left|]. left. now apply A. }
    destruct (Qeq_bool p l && Qeq_bool x p).
    { split; [intros _|reflexivity]. exists lo, up. split; [now left|]. right. now apply B. }
    rewrite IH. split.
    + intros (a & b & H & K). exists a, b. split; [now right|exact K].
    + intros (a & b & [H|H] & K); [|now exists a, b]. injection H as <- <-. destruct K as [K|K]; [apply A in K|apply B in K]; discriminate.
Qed.
Definition beq (a b : option Q) : Prop := same a b.
Lemma beq_above a b x y : beq a b -> (x == y)%Q -> above a x <-> above b y.
Proof. destruct a, b; cbn; try tauto. intros E F. now rewrite E, F. Qed.
Lemma beq_below a b x y : beq a b -> (x == y)%Q -> below x a <-> below y b.
Proof. destruct a, b; cbn; try tauto. intros E F. now rewrite E, F. Qed.
Lemma inside_mono lo up lo' up' x y : Forall2 beq lo lo' -> Forall2 beq up up' -> (x == y)%Q -> inside (combine lo up) x -> inside (combine lo' up') y.
Proof.
  intros L U E (a & b & H & K). revert up up' U H. induction L as [|a0 a1 l l' Ha L IH]; intros up up' U H; [destruct H|].
  destruct U as [|b0 b1 m m' Hb U]; [destruct H|]. destruct H as [H|H].
  - injection H as -> ->. exists a1, b1. split; [now left|]. destruct K as [[K1 K2]|(p & q & -> & -> & E1 & E2)].
    + left. split; [now apply (beq_above _ _ _ _ Ha E)|now apply (beq_below _ _ _ _ Hb E)].
    + right. destruct a1 as [p'|]; [|destruct Ha]. destruct b1 as [q'|]; [|destruct Hb]. exists p', q'. split; [reflexivity|]. split; [reflexivity|]. cbn in Ha, Hb. split; [now rewrite <- Ha, E1|now rewrite <- Hb, E2].
  - destruct (IH m m' U H) as (p & q & H1 & H2). exists p, q. split; [now right|exact H2].
Qed.
Lemma beq_sym l l' : Forall2 beq l l' -> Forall2 beq l' l.
Proof. induction 1 as [|a b l l' H _ IH]; constructor; [|exact IH]. destruct a, b; cbn in *; try tauto. now symmetry. Qed.
Lemma inside_iff lo up lo' up' x y : Forall2 beq lo lo' -> Forall2 beq up up' -> (x == y)%Q -> inside (combine lo up) x <-> inside (combine lo' up') y.
Proof. intros L U E. split; [now apply inside_mono|]. apply inside_mono; [now apply beq_sym|now apply beq_sym|now symmetry]. Qed.

Lemma plain_float n : proper n -> n_su n = None -> (forall l g x, n_exp n = Some (l, g, x) -> In l [101; 69]%N) -> exists q, py_float (text n) = Ret q /\ (q == number n)%Q.
Proof.
  intros P E Hl. destruct (float_plain n P E Hl) as (q & F & Hq). exists q. split; [|exact Hq]. unfold float_with_esd in F. rewrite before_none in F; [exact F|].
  intros H. unfold text, su_text in H. rewrite E in H. cbn [app] in H. apply in_app_or in H. destruct H as [H|H]; [now apply base_clean in H|].
  unfold exp_text in H. destruct (n_exp n) as [[[l g] x]|] eqn:Ee; [|destruct H]. destruct (p_exp _ P _ _ _ Ee) as (Il & Hx & _).
  destruct H as [->|H]; [destruct Il as [K|[K|[K|[K|[]]]]]; discriminate|]. apply in_app_or in H.
  destruct H as [H|H]; [destruct g as [[|]|]; [destruct H as [H|[]]; discriminate|destruct H as [H|[]]; discriminate|destruct H]|]. now apply (dtext_clean _ _ Hx) in H.
Qed.
Lemma text_not_dot n : proper n -> text n <> [46%N].
Proof.
  intros P E. destruct (number_whole n P) as (v & e & G & _). rewrite E in G. discriminate.
Qed.
Lemma makefloat_ok v b : bound_of v b -> exists b', makefloat v = Ret b' /\ beq b' b.
Proof.
  intros [|n q w P Hs He Hq Hv]; [exists None; split; [reflexivity|exact I]|].
  destruct (plain_float n P Hs He) as (q' & F & Hq'). exists (Some q'). split; [|cbn; now rewrite Hq, Hq'].
  destruct Hv as [->| ->]; cbn [makefloat].
  - destruct (str_eqb_spec (text n) [46%N]) as [E|_]; [now apply text_not_dot in E|]. now rewrite F.
  - now rewrite F.
Qed.
Lemma bounds_ok l bs : Forall2 bound_of l bs -> exists bs', bounds l = Ret bs' /\ Forall2 beq bs' bs.
Proof.
  induction 1 as [|v b l bs Hv _ (bs' & E & F)]; [exists []; split; [reflexivity|constructor]|].
  destruct (makefloat_ok v b Hv) as (b' & E' & F'). exists (b' :: bs'). split; [cbn [bounds]; now rewrite E', E|now constructor].
Qed.
(** The values listed for one end of the ranges; absent means unbounded. *)
Definition end_values (def : table) (k : str) (l : list value) : Prop :=
  tget k def = Some (VList l) \/ tget k def = Some (VSL l) \/ (tget k def = None /\ l = [dot]).
Lemma iterate_end def k l : end_values def k l -> iterate (match tget k def with Some x => x | None => VList [dot] end) = Ret l.
Proof. intros [->|[->|[-> ->]]]; reflexivity. Qed.

Lemma map_check_ok ranges ranges' v : (forall x y, (x == y)%Q -> inside ranges x <-> inside ranges' y) -> is_text v = true ->
  exists b, map_check ranges v = Ret b /\ (b = true <-> in_range ranges' v).
Proof.
  intros R Hv. destruct v as [s| | | | |]; try discriminate. unfold map_check.
  destruct (py_eq (VStr s) query || py_eq (VStr s) dot) eqn:E.
  - exists true. split; [reflexivity|]. split; [intros _|reflexivity]. left. apply orb_true_iff in E. destruct E as [E|E]; [left; now apply py_eq_query|right; now apply py_eq_dot].
  - apply orb_false_iff in E. destruct E as [E1 E2].
    assert (~ unknown (VStr s)) as Nu.
    { intros [K|K]; [apply py_eq_query in K; rewrite K in E1; discriminate|apply py_eq_dot in K; rewrite K in E2; discriminate]. }
    cbn [number_of]. destruct (number_prefix s) as [(n & x & e & L & G & Hx & _)|[No G]]; rewrite G; cbn [obind fst].
    + exists (in_ranges ranges x). split; [reflexivity|]. rewrite in_ranges_ok, (R _ _ Hx). split.
      * intros H. right. now exists s, n.
      * intros [H|(s' & n' & E & L' & H)]; [now elim Nu|]. injection E as <-. pose proof (numeral_unique s n n' L L') as <-. exact H.
    + exists false. split; [reflexivity|]. split; [discriminate|]. intros [H|(s' & n' & E & (P' & (rest & Er) & _) & _)]; [now elim Nu|]. injection E as <-. exfalso. now apply (No n' rest).
Qed.
Lemma filterM_offenders (P : value -> Prop) (f : value -> outcome bool) vs :
  (forall x, In x vs -> exists b, f x = Ret b /\ (b = true <-> ~ P x) /\ (b = false <-> P x)) -> exists bad, filterM f vs = Ret bad /\ offenders P vs bad.
Proof.
  induction vs as [|x vs IH]; intros H; [exists []; split; [reflexivity|constructor]|].
  destruct (H x (or_introl eq_refl)) as (b & E & B1 & B2). destruct IH as (bad & E' & O); [intros y Hy; apply H; now right|].
  cbn [filterM]. rewrite E, E'. cbn [obind]. eexists. split; [reflexivity|]. destruct b; [apply of_bad|apply of_good]; try exact O; [now apply B1|now apply B2].
Qed.
Theorem range_ok d name v def mins maxs lo up vs : dic_get d name = Ret def -> (tget range_min def <> None \/ tget range_max def <> None) ->
  end_values def range_min mins -> end_values def range_max maxs -> Forall2 bound_of mins lo -> Forall2 bound_of maxs up ->
  held v vs -> (forall a, In a vs -> is_text a = true) ->
  exists r, validate_enum_range d name v = Ret r /\ verdict (in_range (combine lo up)) vs r [].
Proof.
  intros Hd Hp Hmin Hmax Hlo Hup Hv Ht. unfold validate_enum_range. rewrite Hd. cbn [obind].
  assert (negb (tmem range_min def) && negb (tmem range_max def) = false) as ->.
  { unfold tmem. destruct Hp as [H|H]; [destruct (tget range_min def); [reflexivity|now elim H]|destruct (tget range_max def); [now rewrite andb_false_r|now elim H]]. }
  cbn zeta beta. rewrite (iterate_end _ _ _ Hmax), (iterate_end _ _ _ Hmin). cbn [obind].
  destruct (bounds_ok _ _ Hlo) as (lo' & El & Fl). destruct (bounds_ok _ _ Hup) as (up' & Eu & Fu). rewrite El, Eu. cbn [obind].
  rewrite (listify_held _ _ Hv). cbn [obind].
  destruct (filterM_offenders (in_range (combine lo up)) (fun a => obind (map_check (combine lo' up') a) (fun b => Ret (negb b))) vs) as (bad & Eb & O).
  - intros x Hx. destruct (map_check_ok (combine lo' up') (combine lo up) x) as (b & E & B); [intros p q Hpq; now apply inside_iff|now apply Ht|].
    exists (negb b). rewrite E. cbn [obind]. split; [reflexivity|]. destruct b; cbn [negb]; split; split; try discriminate; try reflexivity; try (intros _; now apply B).
    + intros K. elim K. now apply B.
    + intros _ K. apply B in K. discriminate.
    + intros K. apply B in K. discriminate.
  - rewrite Eb. cbn [obind]. eexists. split; [reflexivity|]. now apply decide_verdict.
Qed.
Theorem range_none d name v def : dic_get d name = Ret def -> tget range_min def = None -> tget range_max def = None -> validate_enum_range d name v = Ret RNone.
Proof. intros Hd H1 H2. unfold validate_enum_range. rewrite Hd. cbn [obind]. unfold tmem. now rewrite H1, H2. Qed.

(** ** Types *)
Theorem type_ok d name v def code r vs : dic_get d name = Ret def -> tget (d_type_spec d) def = Some (VStr code) -> dget str_eqb code (d_types d) = Some r ->
  held v vs -> (forall a, In a vs -> is_text a = true) ->
  exists x, validate_item_type d name v = Ret x /\ verdict (fun a => unknown a \/ exists s, a = VStr s /\ whole_match r s = true) vs x [].
Proof.
  intros Hd Ht Hr Hv Hx. unfold validate_item_type. rewrite Hd. cbn [obind]. rewrite Ht, Hr, (listify_held _ _ Hv). cbn [obind].
  set (P := fun a => unknown a \/ exists s, a = VStr s /\ whole_match r s = true). clear Hv.
  assert (exists bad, filterM (fun a => match a with VStr s => Ret (negb (whole_match r s)) | _ => Raise TypeErr end) (filter (fun a => negb (py_eq a dot) && negb (py_eq a query)) vs) = Ret bad /\ offenders P vs bad) as (bad & E & O).
  { induction vs as [|a vs IH]; [exists []; split; [reflexivity|constructor]|]. destruct IH as (bad & E & O); [intros y Hy; apply Hx; now right|].
    cbn [filter]. destruct (negb (py_eq a dot) && negb (py_eq a query)) eqn:K.
    - pose proof (Hx a (or_introl eq_refl)) as Ha. destruct a as [s| | | | |]; try discriminate. cbn [filterM]. rewrite E. cbn [obind]. eexists. split; [reflexivity|].
      destruct (whole_match r s) eqn:W; cbn [negb]; [apply of_good; [right; now exists s|exact O]|]. apply of_bad; [|exact O].
      apply andb_true_iff in K. destruct K as [K1 K2]. intros [[U|U]|(s' & U & W')]; [apply py_eq_query in U; rewrite U in K2; discriminate|apply py_eq_dot in U; rewrite U in K1; discriminate|].
      injection U as <-. rewrite W in W'. discriminate.
    - exists bad. split; [exact E|]. apply of_good; [|exact O]. left. apply andb_false_iff in K. destruct K as [K|K]; apply negb_false_iff in K; [right; now apply py_eq_dot|left; now apply py_eq_query]. }
  rewrite E. cbn [obind]. eexists. split; [reflexivity|]. now apply decide_verdict.
Qed.

(** ** Standard uncertainties *)
Theorem esd_ok d name v def vs : dic_get d name = Ret def -> tget (d_primitive d) def = Some (VStr (u "numb")) -> tget (d_esd_spec d) def <> Some (VStr (u "esd")) ->
  held v vs -> (forall a, In a vs -> is_text a = true) ->
  exists x, validate_item_esd d name v = Ret x /\ verdict (fun a => forall s n, a = VStr s -> longest n s -> uncertainty n = None) vs x [].
Proof.
  intros Hd Hp He Hv Hx. unfold validate_item_esd. rewrite Hd. cbn [obind]. rewrite Hp. cbn [veq_text]. rewrite str_eqb_refl. cbn [negb].
  assert (veq_text (tget (d_esd_spec d) def) (u "esd") = false) as ->.
  { unfold veq_text. destruct (tget (d_esd_spec d) def) as [[s| | | | |]|]; try reflexivity. destruct (str_eqb_spec s (u "esd")) as [->|_]; [now elim He|reflexivity]. }
  rewrite (listify_held _ _ Hv). cbn [obind].
  destruct (filterM_offenders (fun a => forall s n, a = VStr s -> longest n s -> uncertainty n = None)
    (fun a => obind (number_of a) (fun ne => Ret (match snd ne with Some _ => true | None => false end))) vs) as (bad & Eb & O).
  - intros a Ha. pose proof (Hx a Ha) as Ta. destruct a as [s| | | | |]; try discriminate. cbn [number_of].
    destruct (number_prefix s) as [(n & x & e & L & G & _ & Hu)|[No G]]; rewrite G; cbn [obind snd].
    + destruct e as [e|], (uncertainty n) as [w|] eqn:Eu; cbn in Hu; try contradiction.
      * exists true. split; [reflexivity|]. split; split; try discriminate; try reflexivity.
        -- intros _ K. rewrite (K s n eq_refl L) in Eu. discriminate.
        -- intros K. rewrite (K s n eq_refl L) in Eu. discriminate.
      * exists false. split; [reflexivity|]. assert (forall s0 n0, VStr s = VStr s0 -> longest n0 s0 -> uncertainty n0 = None) as K.
        { intros s0 n0 E0 L0. injection E0 as <-. now rewrite <- (numeral_unique s n n0 L L0). }
        split; split; try discriminate; try reflexivity; [intros K'; now elim K'|intros _; exact K].
    + exists false. split; [reflexivity|]. assert (forall s0 n0, VStr s = VStr s0 -> longest n0 s0 -> uncertainty n0 = None) as K.
      { intros s0 n0 E0 (P0 & (rest & E1) & _). injection E0 as <-. elim (No n0 rest P0 E1). }
      split; split; try discriminate; try reflexivity; [intros K'; now elim K'|intros _; exact K].
  - rewrite Eb. cbn [obind]. eexists. split; [reflexivity|]. now apply decide_verdict.
Qed.
