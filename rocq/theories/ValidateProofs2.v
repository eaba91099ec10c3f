(** Checks that relate items, and the run of all checks. *)
From Coq Require Import String Ascii List NArith ZArith QArith Bool Lia Setoid Permutation.
From Verif Require Import PyBase PyFacts StarBlockModel LoopModel LoopSpec LoopProofs RegexModel NumberModel NumberSpec ValidateModel ValidateSpec ValidateProofs.
Import ListNotations.
Open Scope nat_scope.

(** ** Parents and children *)
Lemma pc_offenders pv vs : offenders (listed pv) vs (check_parent_child pv vs).
Proof. apply (offenders_filter (listed pv) (fun a => vmem a (pv ++ [dot; query]))). intros x _. apply vmem_listed. Qed.
(** The value in which the parent's values are looked up: the global items
    first, then the provisional ones, then the block. *)
Definition parent_value (p : str) (whole prov globals : table) (o : value) : Prop :=
  (tget p globals = Some o /\ truthy (Some o) = true)
  \/ (truthy (tget p globals) = false /\ (tget p prov = Some o \/ tget p prov = None /\ tget p whole = Some o) /\ truthy (Some o) = true).
Definition names_parent (d : cifdic) (def : table) (p : str) : Prop :=
  (tget (d_parent_spec d) def = Some (VStr p) /\ p <> []) \/ exists l, tget (d_parent_spec d) def = Some (VList (VStr p :: l)) \/ tget (d_parent_spec d) def = Some (VSL (VStr p :: l)).
Lemma held_list v vs : held v vs -> value_list (Some v) = Ret vs.
Proof. intros []; reflexivity. Qed.
Lemma against_ok pv vs p : verdict (listed pv) vs (match check_parent_child pv vs with [] => RTrue | bad => RFalse bad [p] end) [p].
Proof.
  exists (check_parent_child pv vs). split; [apply pc_offenders|]. destruct (check_parent_child pv vs); split; try reflexivity; try discriminate. intros K; now elim K.
Qed.
Lemma found_ok p whole prov globals o : parent_value p whole prov globals o ->
  (if truthy (tget p globals) then tget p globals else first_of (tget p prov) (tget p whole)) = Some o /\ truthy (Some o) = true.
Proof.
  intros [[E T]|[F [E T]]]; [rewrite E, T; now split|]. rewrite F. split; [|exact T]. destruct E as [->|[-> ->]]; reflexivity.
Qed.
Theorem parent_ok d name v def p vs whole prov globals o pvs : dic_get d name = Ret def -> names_parent d def p -> held v vs ->
  parent_value p whole prov globals o -> held o pvs ->
  exists r, validate_parent d name v whole prov globals = Ret r /\ verdict (listed pvs) vs r [p].
Proof.
  intros Hd Hp Hv Ho Hh. unfold validate_parent. rewrite Hd. cbn [obind]. destruct (found_ok _ _ _ _ _ Ho) as [F T]. cbn zeta. rewrite (held_list _ _ Hv).
  assert (exists r, (if truthy (Some o) then obind (value_list (Some o)) (fun pv => match check_parent_child pv vs with [] => Ret RTrue | bad => Ret (RFalse bad [p]) end)
    else obind (get_alternates d p false) (fun alts =>
       match filter (fun a => smem a (tkeys whole ++ tkeys prov ++ tkeys globals)) alts with
       | [] => if existsb (fun a => negb (py_eq a dot) && negb (py_eq a query)) vs then Ret (RFalse [] [p]) else Ret RNone
       | alt :: _ =>
           obind (value_list (if truthy (first_of (tget alt prov) (tget alt whole)) then first_of (tget alt prov) (tget alt whole) else tget alt globals))
             (fun pv => match check_parent_child pv vs with [] => Ret RTrue | bad => Ret (RFalse bad [alt]) end)
       end)) = Ret r /\ verdict (listed pvs) vs r [p]) as G.
  { rewrite T, (held_list _ _ Hh). cbn [obind]. exists (match check_parent_child pvs vs with [] => RTrue | bad => RFalse bad [p] end). split; [now destruct (check_parent_child pvs vs)|apply against_ok]. }
  destruct Hp as [[-> Np]|(l & [->| ->])]; cbn [truthy]; [destruct p as [|c p]; [now elim Np|]|idtac|idtac]; cbn [negb obind]; rewrite F; exact G.
Qed.
Definition present (whole prov globals : table) (a : str) : Prop := In a (tkeys whole) \/ In a (tkeys prov) \/ In a (tkeys globals).
Lemma smem_spec x l : smem x l = true <-> In x l.
Proof. apply (mem_In str_eqb str_eqb_spec). Qed.
Lemma present_smem whole prov globals a : smem a (tkeys whole ++ tkeys prov ++ tkeys globals) = true <-> present whole prov globals a.
Proof. rewrite smem_spec, !in_app_iff. reflexivity. Qed.
Lemma filter_nil {A} (p : A -> bool) l : filter p l = [] <-> forall x, In x l -> p x = false.
Proof.
  induction l as [|x l IH]; cbn [filter]; [split; [intros _ y []|reflexivity]|]. destruct (p x) eqn:E.
  - split; [discriminate|]. intros H. rewrite (H x (or_introl eq_refl)) in E. discriminate.
  - rewrite IH. split; [intros H y [<-|Hy]; auto|intros H y Hy; apply H; now right].
Qed.
Theorem parent_absent d name v def p vs whole prov globals alts : dic_get d name = Ret def -> names_parent d def p -> held v vs ->
  tget p globals = None -> tget p prov = None -> tget p whole = None -> get_alternates d p false = Ret alts -> (forall a, In a alts -> ~ present whole prov globals a) ->
  (Forall unknown vs -> validate_parent d name v whole prov globals = Ret RNone)
  /\ (~ Forall unknown vs -> validate_parent d name v whole prov globals = Ret (RFalse [] [p])).
Proof.
  intros Hd Hp Hv Hg Hpr Hw Ha Hn. unfold validate_parent. rewrite Hd. cbn [obind]. cbn zeta. rewrite (held_list _ _ Hv).
  set (k := existsb (fun a => negb (py_eq a dot) && negb (py_eq a query)) vs).
  assert ((k = false <-> Forall unknown vs)) as K.
  { subst k. clear. induction vs as [|a vs IH]; cbn [existsb]; [split; [constructor|reflexivity]|]. rewrite orb_false_iff, IH. split.
    - intros [H1 H2]. constructor; [|exact H2]. apply andb_false_iff in H1. destruct H1 as [H|H]; apply negb_false_iff in H; [right; now apply py_eq_dot|left; now apply py_eq_query].
    - intros H. inversion H as [|? ? H1 H2]; subst. split; [|exact H2]. apply andb_false_iff. destruct H1 as [U|U]; [right; apply negb_false_iff; now apply py_eq_query|left; apply negb_false_iff; now apply py_eq_dot]. }
  assert (forall A (x y : A), (if k then x else y) = if k then x else y) as _ by reflexivity.
  assert (validate_parent d name v whole prov globals = if k then Ret (RFalse [] [p]) else Ret RNone) as G.
  { unfold validate_parent. rewrite Hd. cbn [obind]. cbn zeta. rewrite (held_list _ _ Hv).
    assert (filter (fun a => smem a (tkeys whole ++ tkeys prov ++ tkeys globals)) alts = []) as Ef.
    { apply filter_nil. intros a Hin. destruct (smem a _) eqn:E; [|reflexivity]. apply present_smem in E. now elim (Hn a Hin). }
    destruct Hp as [[-> Np]|(l & [->| ->])]; cbn [truthy]; [destruct p as [|c p]; [now elim Np|]|idtac|idtac]; cbn [negb obind]; rewrite Hg; cbn [truthy]; rewrite Hpr, Hw; cbn [first_of truthy]; rewrite Ha; cbn [obind]; rewrite Ef; reflexivity. }
  unfold validate_parent in G. rewrite Hd in G. cbn [obind] in G. cbn zeta in G. rewrite (held_list _ _ Hv) in G. rewrite G. destruct k eqn:Ek.
  - split; [intros H; apply K in H; discriminate|reflexivity].
  - split; [reflexivity|]. intros H. elim H. now apply K.
Qed.

(** ** Exclusion *)
Theorem exclusion_ok d name whole prov alts : get_alternates d name true = Ret alts ->
  exists r, validate_exclusion d name whole prov = Ret r /\
  (r = RTrue <-> forall a k, In a alts -> In k (tkeys whole ++ tkeys prov) -> lower a <> lower k).
Proof.
  intros Ha. unfold validate_exclusion. rewrite Ha. cbn [obind]. cbn zeta.
  set (bad := filter _ _). exists (match bad with [] => RTrue | _ => RFalse [] bad end). split; [reflexivity|].
  assert (bad = [] <-> forall a k, In a alts -> In k (tkeys whole ++ tkeys prov) -> lower a <> lower k) as B.
  { subst bad. rewrite filter_nil. split.
    - intros H a k Hin Hk E. specialize (H (lower a) (in_map lower _ _ Hin)). destruct (smem (lower a) (map lower (tkeys whole) ++ map lower (tkeys prov))) eqn:F; [discriminate|].
      assert (smem (lower a) (map lower (tkeys whole) ++ map lower (tkeys prov)) = true) as X; [|rewrite X in F; discriminate]. apply smem_spec. rewrite <- map_app, E. now apply in_map.
    - intros H x Hx. apply in_map_iff in Hx. destruct Hx as (a & <- & Hin). destruct (smem (lower a) _) eqn:F; [|reflexivity]. apply smem_spec in F. rewrite <- map_app in F. apply in_map_iff in F.
      destruct F as (k & E & Hk). symmetry in E. now elim (H a k Hin Hk). }
  rewrite <- B. destruct bad; split; try reflexivity; discriminate.
Qed.

(** ** Uniqueness *)
Inductive rows (others : list value) : list value -> nat -> list str -> Prop :=
| rows_nil i : rows others [] i []
| rows_cons v r i e es : row_entry v others i = Ret (VStr e) -> rows others r (S i) es -> rows others (v :: r) i (e :: es).
Lemma vmem_texts e seen : vmem (VStr e) (map VStr seen) = true <-> In e seen.
Proof.
  rewrite vmem_spec. split.
  - intros (w & Hw & S). apply in_map_iff in Hw. destruct Hw as (s & <- & Hs). apply same_text in S. injection S as ->. exact Hs.
  - intros H. exists (VStr e). split; [now apply in_map|]. now apply same_text.
Qed.
Lemma check_rows_spec others vs i es : rows others vs i es -> forall seen, NoDup seen ->
  (check_rows vs others i (map VStr seen) = Ret RTrue /\ NoDup (seen ++ es))
  \/ (exists e, check_rows vs others i (map VStr seen) = Ret (RFalse [VStr e] []) /\ ~ NoDup (seen ++ es)).
Proof.
  induction 1 as [i|v r i e es He _ IH]; intros seen Hs; cbn [check_rows]; [left; rewrite app_nil_r; now split|].
  rewrite He. cbn [obind]. destruct (vmem (VStr e) (map VStr seen)) eqn:E.
  - right. exists e. split; [reflexivity|]. apply vmem_texts in E. intros N. apply NoDup_remove_2 in N. apply N. apply in_or_app. now left.
  - assert (NoDup (seen ++ [e])) as Hs'.
    { apply NoDup_app_iff. split; [exact Hs|]. split; [constructor; [intros []|constructor]|]. intros x Hx [<-|[]]. apply vmem_texts in Hx. rewrite Hx in E. discriminate. }
    specialize (IH (seen ++ [e]) Hs'). rewrite map_app in IH. cbn [map] in IH. rewrite <- app_assoc in IH. cbn [app] in IH. exact IH.
Qed.
(** The columns of the other key items. *)
Definition column_of (whole prov : table) (o : str) (c : list str) : Prop :=
  first_of (tget o prov) (tget o whole) = Some (VList (map VStr c)) \/ first_of (tget o prov) (tget o whole) = Some (VSL (map VStr c)).
Definition holds_col (v : value) (c : list str) : Prop := v = VList (map VStr c) \/ v = VSL (map VStr c).
Definition cell (i : nat) (c : list str) : str := nth i c [].
Fixpoint joined (e : str) (cs : list str) : str := match cs with [] => e | c :: r => joined (e ++ 32%N :: c) r end.
Lemma join_row_ok others cols i : Forall2 holds_col others cols -> (forall c, In c cols -> i < length c) -> forall e, join_row e others i = Ret (joined e (map (cell i) cols)).
Proof.
  induction 1 as [|v c others cols Hv _ IH]; intros Hl e; [reflexivity|]. cbn [join_row map joined].
  assert (vindex v i = Ret (VStr (cell i c))) as ->.
  { assert (nth_error (map VStr c) i = Some (VStr (cell i c))) as E.
    { rewrite nth_error_map. unfold cell. rewrite (nth_error_nth' c [] (Hl c (or_introl eq_refl))). reflexivity. }
    destruct Hv as [->| ->]; cbn [vindex]; now rewrite E. }
  cbn [obind]. apply IH. intros x Hx. apply Hl. now right.
Qed.
Lemma rows_ok others cols : Forall2 holds_col others cols -> forall col i, (forall c, In c cols -> i + length col <= length c) ->
  rows others (map VStr col) i (map (fun p => joined (fst p) (map (cell (snd p)) cols)) (combine col (seq i (length col)))).
Proof.
  intros F col. induction col as [|s col IH]; intros i Hl; cbn [map length seq combine]; [constructor|]. constructor.
  - cbn [fst snd]. unfold row_entry. destruct F as [|v c others cols Hv F]; [reflexivity|]. rewrite (join_row_ok (v :: others) (c :: cols) i); [reflexivity|now constructor|].
    intros x Hx. specialize (Hl x Hx). cbn [length] in Hl. lia.
  - apply IH. intros c Hc. specialize (Hl c Hc). cbn [length] in Hl. lia.
Qed.
Lemma other_data_ok d name n whole prov names cols : Forall2 (column_of whole prov) names cols ->
  exists others, other_data d name n whole prov names = Ret (inl others) /\ Forall2 holds_col others cols.
Proof.
  induction 1 as [|o c names cols Ho _ (others & E & F)]; [exists []; split; [reflexivity|constructor]|]. cbn [other_data].
  destruct Ho as [H|H]; rewrite H; cbn [obind]; rewrite E; cbn [obind]; eexists; (split; [reflexivity|]); constructor; auto; [now left|now right].
Qed.
Lemma joined_app e cs : joined e cs = e ++ flat_map (fun c => 32%N :: c) cs.
Proof. revert e. induction cs as [|c cs IH]; intros e; cbn [joined flat_map]; [now rewrite app_nil_r|]. rewrite IH, <- app_assoc. reflexivity. Qed.
Definition spaceless (s : str) : Prop := ~ In 32%N s.
Lemma split_space (a b : list N) (x y : list N) : spaceless a -> spaceless b -> (x = [] \/ exists x', x = 32%N :: x') -> (y = [] \/ exists y', y = 32%N :: y') -> a ++ x = b ++ y -> a = b /\ x = y.
Proof.
  revert b. induction a as [|p a IH]; intros [|q b] Sa Sb Hx Hy E; cbn [app] in E; [now split| | |].
  - destruct Hx as [->|(x' & ->)]; [discriminate|]. injection E as <- _. elim Sb. now left.
  - destruct Hy as [->|(y' & ->)]; [discriminate|]. injection E as -> _. elim Sa. now left.
  - injection E as -> E. destruct (IH b) as [-> ->]; auto; [intros K; apply Sa; now right|intros K; apply Sb; now right].
Qed.
Lemma tail_space cs : flat_map (fun c => 32%N :: c) cs = [] \/ exists x', flat_map (fun c : str => 32%N :: c) cs = 32%N :: x'.
Proof. destruct cs as [|c cs]; [now left|]. right. cbn [flat_map app]. now eexists. Qed.
Lemma tails_inj cs cs' : length cs = length cs' -> Forall spaceless cs -> Forall spaceless cs' -> flat_map (fun c : str => 32%N :: c) cs = flat_map (fun c : str => 32%N :: c) cs' -> cs = cs'.
Proof.
  revert cs'. induction cs as [|c cs IH]; intros [|c' cs'] L S S' E; try discriminate; [reflexivity|]. cbn [flat_map app] in E. injection E as E.
  inversion S; inversion S'; subst. destruct (split_space c c' _ _ H1 H5 (tail_space cs) (tail_space cs') E) as [-> E2]. f_equal. apply IH; auto.
Qed.
Lemma joined_inj e e' cs cs' : length cs = length cs' -> spaceless e -> spaceless e' -> Forall spaceless cs -> Forall spaceless cs' -> joined e cs = joined e' cs' -> e = e' /\ cs = cs'.
Proof.
  intros L Se Se' S S' E. rewrite !joined_app in E. destruct (split_space e e' _ _ Se Se' (tail_space cs) (tail_space cs') E) as [-> E2]. split; [reflexivity|]. now apply tails_inj.
Qed.

Definition key_names (cat : table) (keys : list str) : Prop :=
  exists x, tget (u "_category_key.name") cat = Some x /\ (x = VList (map VStr keys) \/ x = VSL (map VStr keys) \/ exists k, x = VStr k /\ keys = [k]).
Lemma texts_map l : texts (map VStr l) = Ret l.
Proof. induction l as [|s l IH]; [reflexivity|]. cbn [map]. unfold texts in *. cbn [fold_right]. now rewrite IH. Qed.
Lemma key_names_of cat keys : key_names cat keys -> match tget (u "_category_key.name") cat with None => Ret [] | Some x => names_of x end = Ret keys.
Proof. intros (x & -> & [->|[->|(k & -> & ->)]]); unfold names_of; cbn [listify obind]; [apply texts_map|apply texts_map|reflexivity]. Qed.
Lemma entries_nth (col : list str) (cols : list (list str)) i j (f : str * nat -> str) : nth_error (map f (combine col (seq j (length col)))) i = option_map (fun s => f (s, j + i)) (nth_error col i).
Proof.
  revert i j. induction col as [|s col IH]; intros i j; cbn [length seq combine map]; [now destruct i|]. destruct i as [|i]; cbn [nth_error option_map]; [now rewrite Nat.add_0_r|]. rewrite IH, Nat.add_succ_r. reflexivity.
Qed.
Theorem unique_ok d name v def category cat keys col cols whole prov : dic_get d name = Ret def -> tget (d_cat_spec d) def = Some (VStr category) -> dic_get d category = Ret cat ->
  key_names cat keys -> In name keys -> holds_col v col -> Forall2 (column_of whole prov) (remove1 str_eqb name keys) cols -> (forall c, In c cols -> length c = length col) ->
  exists r, validate_uniqueness d name v whole prov = Ret r /\ (r = RTrue -> unique_rows (length col) (col :: cols))
    /\ ((forall c s, In c (col :: cols) -> In s c -> spaceless s) -> unique_rows (length col) (col :: cols) -> r = RTrue)
    /\ (r <> RTrue -> exists e, r = RFalse [VStr e] []).
Proof.
  intros Hd Hc Hcat Hk Hin Hv Ho Hl. unfold validate_uniqueness. rewrite Hd. cbn [obind]. rewrite Hc, Hcat. cbn [obind]. rewrite (key_names_of _ _ Hk). cbn [obind].
  assert (smem name keys = true) as -> by now apply smem_spec. cbn [negb].
  destruct (other_data_ok d name (length col) whole prov _ _ Ho) as (others & Eo & Fo).
  pose proof (rows_ok others cols Fo col 0) as R. specialize (R ltac:(intros c Hc'; rewrite (Hl c Hc'); lia)).
  match type of R with rows _ _ _ ?e => set (es := e) in R end. assert (length es = length col) as Les by (subst es; rewrite map_length, combine_length, seq_length; lia).
  assert (forall i, i < length col -> nth_error es i = Some (joined (cell i col) (map (cell i) cols))) as Nes.
  { intros i Hi. subst es. rewrite entries_nth by exact cols. cbn [Nat.add fst snd]. unfold cell at 2. rewrite (nth_error_nth' col [] Hi). reflexivity. }
  assert (forall i j, i < length col -> j < length col -> agree (col :: cols) i j <-> forall c, In c (col :: cols) -> cell i c = cell j c) as Ag.
  { intros i j Hi Hj. unfold agree, cell. split; intros H c Hc'; specialize (H c Hc'); assert (length c = length col) as E by (destruct Hc' as [<-|Hc']; [reflexivity|now apply Hl]).
    - rewrite (nth_error_nth' c []) in H by lia. rewrite (nth_error_nth' c []) in H by lia. now injection H.
    - rewrite (nth_error_nth' c []) by lia. rewrite (nth_error_nth' c []) by lia. now rewrite H. }
  assert (NoDup es -> unique_rows (length col) (col :: cols)) as U1.
  { intros N i j Hi Hj A. rewrite NoDup_nth_error in N. apply N; [lia|]. rewrite (Nes i Hi), (Nes j Hj). pose proof (proj1 (Ag i j Hi Hj) A) as A2. clear A. rename A2 into A. f_equal. rewrite (A col (or_introl eq_refl)). f_equal.
    apply map_ext_in. intros c Hc'. apply A. now right. }
  assert ((forall c s, In c (col :: cols) -> In s c -> spaceless s) -> unique_rows (length col) (col :: cols) -> NoDup es) as U2.
  { intros S U. apply NoDup_nth_error. intros i j Hi E. rewrite Les in Hi. rewrite (Nes i Hi) in E. assert (j < length col) as Hj. { rewrite <- Les. apply nth_error_Some. rewrite <- E. discriminate. }
    rewrite (Nes j Hj) in E. injection E as E. apply U; auto. apply (proj2 (Ag i j Hi Hj)).
    assert (forall k c, k < length col -> In c (col :: cols) -> spaceless (cell k c)) as Sk.
    { intros k c Hk' Hc'. apply (S c); [exact Hc'|]. unfold cell. apply nth_In. destruct Hc' as [<-|Hc']; [exact Hk'|now rewrite Hl]. }
    destruct (joined_inj (cell i col) (cell j col) (map (cell i) cols) (map (cell j) cols)) as [E1 E2]; auto.
    - now rewrite !map_length.
    - apply Sk; [exact Hi|now left].
    - apply Sk; [exact Hj|now left].
    - apply Forall_forall. intros x Hx. apply in_map_iff in Hx. destruct Hx as (c & <- & Hc'). apply Sk; [exact Hi|now right].
    - apply Forall_forall. intros x Hx. apply in_map_iff in Hx. destruct Hx as (c & <- & Hc'). apply Sk; [exact Hj|now right].
    - intros c [<-|Hc']; [exact E1|]. clear -E2 Hc'. induction cols as [|a l IH]; [destruct Hc'|]. cbn [map] in E2. injection E2 as Ea El. destruct Hc' as [<-|Hc']; auto. }
  assert (exists r, obind (other_data d name (length (map VStr col)) whole prov (remove1 str_eqb name keys)) (fun o =>
               match o with inr missing => Ret (RFalse [] [missing]) | inl others => check_rows (map VStr col) others 0 [] end) = Ret r /\ (r = RTrue -> unique_rows (length col) (col :: cols))
    /\ ((forall c s, In c (col :: cols) -> In s c -> spaceless s) -> unique_rows (length col) (col :: cols) -> r = RTrue) /\ (r <> RTrue -> exists e, r = RFalse [VStr e] [])) as G.
  { rewrite map_length, Eo. cbn [obind]. destruct (check_rows_spec others _ _ _ R [] (NoDup_nil _)) as [[E N]|(e & E & N)]; cbn [map app] in E, N; rewrite E; eexists; (split; [reflexivity|]).
    - split; [intros _; now apply U1|]. split; [reflexivity|]. intros K; now elim K.
    - split; [discriminate|]. split; [intros S U; elim N; now apply U2|]. intros _. now exists e. }
  destruct Hv as [->| ->]; exact G.
Qed.

(** ** Loops *)
Theorem membership_ddl2 d names cs : d_lookup d = [] -> categories_of d names = Ret cs -> validate_loop_membership d names = Ret RTrue.
Proof.
  intros Hl Hc. unfold validate_loop_membership, get_final_cats. rewrite Hc, Hl. cbn [obind].
  assert (flat_map (fun c : str => match dget str_eqb c ([] : list (str * str)) with Some p => [p] | None => [] end) cs = []) as ->; [|reflexivity]. clear. induction cs; [reflexivity|assumption].
Qed.
(** The top category of each name of a loopable category. *)
Definition tops (d : cifdic) (cs : list str) : list str := flat_map (fun c => match dget str_eqb c (d_lookup d) with Some p => [p] | None => [] end) cs.
Theorem membership_ok d names cs : categories_of d names = Ret cs ->
  exists r, validate_loop_membership d names = Ret r /\
  (r = RTrue <-> forall c c' p p', In c cs -> In c' cs -> dget str_eqb c (d_lookup d) = Some p -> dget str_eqb c' (d_lookup d) = Some p' -> p = p').
Proof.
  intros Hc. unfold validate_loop_membership, get_final_cats. rewrite Hc. cbn [obind].
  set (fc := flat_map _ cs).
  assert (forall p, In p fc <-> exists c, In c cs /\ dget str_eqb c (d_lookup d) = Some p) as Hf.
  { intros p. subst fc. rewrite in_flat_map. split; intros (c & H1 & H2); exists c; (split; [exact H1|]).
    - destruct (dget str_eqb c (d_lookup d)) as [q|]; [destruct H2 as [->|[]]; reflexivity|destruct H2].
    - rewrite H2. now left. }
  set (Q := forall c c' p p', _).
  assert (Q <-> forall p p', In p fc -> In p' fc -> p = p') as HQ.
  { subst Q. split.
    - intros H p p' Hp Hp'. apply Hf in Hp, Hp'. destruct Hp as (c & H1 & H2), Hp' as (c' & H3 & H4). now apply (H c c').
    - intros H c c' p p' H1 H2 H3 H4. apply H; apply Hf; [now exists c|now exists c']. }
  setoid_rewrite HQ. clear HQ Hf. destruct fc as [|c fc]; [exists RTrue; split; [reflexivity|]; split; [intros _ p p' []|reflexivity]|].
  eexists. split; [reflexivity|].
  assert (filter (fun a => negb (str_eqb a c)) (c :: fc) = [] <-> forall p p', In p (c :: fc) -> In p' (c :: fc) -> p = p') as B.
  { rewrite filter_nil. split.
    - intros H p p' Hp Hp'. pose proof (H p Hp) as E1. pose proof (H p' Hp') as E2. apply negb_false_iff in E1, E2. destruct (str_eqb_spec p c); [|discriminate]. destruct (str_eqb_spec p' c); [|discriminate]. congruence.
    - intros H x Hx. rewrite (H x c Hx (or_introl eq_refl)). now rewrite str_eqb_refl. }
  rewrite <- B. destruct (filter _ _); split; try reflexivity; discriminate.
Qed.
