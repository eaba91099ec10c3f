(** Loading DDL1 and DDL2 dictionaries (DdlModel), in the terms of DdlSpec. *)
From Coq Require Import String Ascii List NArith ZArith QArith Bool PeanoNat Lia.
From Verif Require Import PyBase PyFacts StarBlockModel LoopModel LoopSpec LoopProofs NumberSpec ValidateModel ValidateSpec ValidateProofs ValidateProofs2
  EditModel DdlModel DdlSpec DdlProofs DdlProofs2 DdlProofs3 DdlProofs4 DdlProofs5.
Import ListNotations.
Open Scope string_scope. Open Scope list_scope. Open Scope nat_scope.

Definition t (s : string) : value := VStr (u s).
Definition tb (l : list (string * value)) : table := map (fun p => (u (fst p), snd p)) l.
Definition blk (k : string) (l : list (string * value)) : str * entry := (u k, (tb l, false)).

(** ** C86: names *)
(** Definitions are filed under their own names, one for each name; blocks without a
    name stay. *)
Theorem C86_names_partial d keep new : renamed d keep new -> NoDup (map fst d ++ map fst new) -> (forall k, In k (map fst d) -> lower k = k) ->
  split_all d d = Ret (keep ++ new).
Proof. exact (split_ok d keep new). Qed.
Definition this_one : str * entry := blk "on_this_dictionary" [("_dictionary_name", t "x.dic"); ("_dictionary_version", t "1")].
Definition a_overview : list (string * value) := [("_name", t "_atom_site_[]"); ("_category", t "category_overview"); ("_type", t "null")].
Definition a_fract (n : value) : list (string * value) := [("_name", n); ("_category", t "atom_site"); ("_type", t "numb"); ("_enumeration_range", t "0.0:1.5E1"); ("_list", t "yes"); ("_list_mandatory", t "yes")].
Definition a_label : list (string * value) := [("_name", t "_atom_site_label"); ("_category", t "atom_site"); ("_type", t "char"); ("_type_construct", t "[A-Z]"); ("_list_uniqueness", t "_atom_site_label")].
Definition a_cell : list (string * value) := [("_name", t "_cell"); ("_category", t "cell"); ("_type", t "numb"); ("_enumeration_range", t ":5")].
Definition d0 : defs := [this_one; blk "atom_site_[]" a_overview; blk "atom_site_x" (a_fract (VList [t "_atom_site_fract_x"; t "_atom_site_fract_y"])); blk "atom_site_label" a_label; blk "cell" a_cell].
Definition fract (n : string) : str * entry := (u n, (tb (a_fract (t n)), true)).
Definition d0_new : defs := [blk "_atom_site_[]" a_overview; fract "_atom_site_fract_x"; fract "_atom_site_fract_y"; blk "_atom_site_label" a_label; blk "_cell" a_cell].
Definition d0_1 : defs := this_one :: d0_new.
Ltac plain := repeat split; [cbn; intuition discriminate|cbn; intuition discriminate|apply Nat.leb_le; vm_compute; reflexivity].
Ltac nodup := match goal with |- NoDup ?l => let x := eval vm_compute in l in change (NoDup x) end; repeat (constructor; [cbn; intuition discriminate|]); constructor.
Lemma d0_renamed : renamed d0 [this_one] d0_new.
Proof.
  unfold d0, d0_new. apply rn_keep; [reflexivity|].
  apply (rn_move _ _ _ _ _ [blk "_atom_site_[]" a_overview]); [apply (sf_one (tb a_overview) false (u "_atom_site_[]")); [reflexivity|plain]|].
  apply (rn_move _ _ _ _ _ [fract "_atom_site_fract_x"; fract "_atom_site_fract_y"]).
  { apply (sf_many (tb (a_fract (VList [t "_atom_site_fract_x"; t "_atom_site_fract_y"]))) false [t "_atom_site_fract_x"; t "_atom_site_fract_y"] [u "_atom_site_fract_x"; u "_atom_site_fract_y"]);
      [left; reflexivity|reflexivity|]. constructor; [plain|]. constructor; [plain|constructor]. }
  apply (rn_move _ _ _ _ _ [blk "_atom_site_label" a_label]); [apply (sf_one (tb a_label) false (u "_atom_site_label")); [reflexivity|plain]|].
  apply (rn_move _ _ _ _ _ [blk "_cell" a_cell]); [apply (sf_one (tb a_cell) false (u "_cell")); [reflexivity|plain]|]. constructor.
Qed.
Lemma d0_lower : forall k, In k (map fst d0) -> lower k = k.
Proof. intros k H. cbn [d0 map fst this_one blk In] in H. repeat (destruct H as [<-|H]; [vm_compute; reflexivity|]). destruct H. Qed.
Lemma d0_nodup : NoDup (map fst d0 ++ map fst d0_new).
Proof. nodup. Qed.
Example C86_meets : split_all d0 d0 = Ret d0_1.
Proof. exact (C86_names_partial d0 [this_one] d0_new d0_renamed d0_nodup d0_lower). Qed.
(** Two blocks with the same name: only the later one is kept, and nobody is told. *)
Theorem C86_same_name_refuted : exists d d', split_all d d = Ret d' /\ exists k1 k2 t1 t2 s, In (k1, (t1, false)) d /\ In (k2, (t2, false)) d /\ t1 <> t2
  /\ tget n_name t1 = Some (VStr s) /\ tget n_name t2 = Some (VStr s) /\ forall k ov, ~ In (k, (t1, ov)) d'.
Proof.
  exists [blk "a" [("_name", t "_x"); ("_type", t "char")]; blk "b" [("_name", t "_x"); ("_type", t "numb")]], [blk "_x" [("_name", t "_x"); ("_type", t "numb")]].
  split; [vm_compute; reflexivity|]. exists (u "a"), (u "b"), (tb [("_name", t "_x"); ("_type", t "char")]), (tb [("_name", t "_x"); ("_type", t "numb")]), (u "_x").
  split; [now left|]. split; [right; now left|]. split; [intros K; discriminate K|]. split; [reflexivity|]. split; [reflexivity|]. intros k ov [K|[]]. discriminate K.
Qed.
(** A block whose key is its name in lower case is lost if the name has capitals: the
    definition is stored and then deleted as the old one. *)
Theorem C86_capitals_refuted : exists d k t s, In (k, (t, false)) d /\ tget n_name t = Some (VStr s) /\ lower s = k /\ split_all d d = Ret [].
Proof.
  exists [blk "_x" [("_name", t "_X")]], (u "_x"), (tb [("_name", t "_X")]), (u "_X"). split; [now left|]. split; [reflexivity|]. split; vm_compute; reflexivity.
Qed.

(** ** C87: contents *)
(** Every definition is completed, and the types and the categories that they bring
    are collected in order. *)
Theorem C87_contents_partial d rows o cats : Forall (fun x : str * entry => usable (fst (snd x))) d -> own_types d rows -> overviews d o -> missing [] o cats ->
  exists d', normal_all d base_found = Ret (d', Found (base_types ++ type_codes rows) (base_constructs ++ type_constructs rows) (base_types ++ type_prims rows) (map VStr cats))
    /\ Forall2 same_place d d'.
Proof. intros U T O M. exact (normal_all_ok d base_found [] rows o cats U T O eq_refl M). Qed.
(** A value is in the range of a definition after loading exactly if it is between the
    ends that were written. *)
Theorem C87_range f0 t0 t1 f1 lo up d name v vs : readable_end lo -> readable_end up -> ordered lo up -> tget n_range t0 = Some (VStr (range_text lo up)) ->
  usable t0 -> normal_one t0 f0 = Ret (t1, f1) -> dic_get d name = Ret t1 -> held v vs -> (forall a, In a vs -> is_text a = true) ->
  exists r, validate_enum_range d name v = Ret r /\ verdict (within_ends lo up) vs r [].
Proof.
  intros A B O E U N D H T. destruct (normal_one_ok t0 f0 U) as (t' & f' & N' & Nm & _). rewrite N in N'. injection N' as <- <-.
  destruct (nm_range _ _ Nm lo up A B O E) as (mins & maxs & lows & ups & E1 & E2 & F1 & F2 & I).
  destruct (range_ok d name v t1 mins maxs lows ups vs D) as (r & Er & V); try assumption.
  - left. congruence.
  - now left.
  - now left.
  - exists r. split; [exact Er|]. destruct V as (bad & Of & V1). exists bad. split; [|exact V1]. clear - Of I.
    assert (forall x, in_range (combine lows ups) x <-> within_ends lo up x) as Q
      by (intros x; unfold in_range, within_ends; split; (intros [K|(s & n & K1 & K2 & K3)]; [now left|right; exists s, n; split; [exact K1|]; split; [exact K2|now apply I]])).
    induction Of as [|x l b P Of IH|x l b P Of IH]; [constructor|apply of_bad; [now rewrite <- Q|exact IH]|apply of_good; [now apply Q|exact IH]].
Qed.
Definition num_a : numeral := mkNum false [0%N] (Some [0%N]) None None.
Definition num_b : numeral := mkNum false [1%N] (Some [5%N]) None (Some (69%N, None, [1%N])).
Definition num_c : numeral := mkNum false [5%N] None None None.
Lemma num_a_ok : readable num_a. Proof. split; [split; cbn; try (intros; discriminate); [repeat constructor|intros f K; injection K as <-; repeat constructor|left; discriminate]|split; [reflexivity|cbn; intros; discriminate]]. Qed.
Lemma num_b_ok : readable num_b.
Proof.
  split; [split; cbn; try (intros; discriminate); [repeat constructor|intros f K; injection K as <-; repeat constructor|left; discriminate|]|split; [reflexivity|]].
  - intros l g x K. injection K as <- <- <-. split; [cbn; tauto|]. split; [repeat constructor|discriminate].
  - cbn. intros l g x K. injection K as <- <- <-. tauto.
Qed.
Lemma num_c_ok : readable num_c. Proof. split; [split; cbn; try (intros; discriminate); [repeat constructor|left; discriminate]|split; [reflexivity|cbn; intros; discriminate]]. Qed.
Lemma d0_usable : Forall (fun x : str * entry => usable (fst (snd x))) d0_1.
Proof.
  assert (forall n, usable (tb (a_fract (t n)))) as Uf.
  { intros n. split; [right; exists (Some num_a), (Some num_b); split; [exact num_a_ok|split; [exact num_b_ok|reflexivity]]|left; reflexivity|intros K; discriminate K]. }
  unfold d0_1, d0_new, this_one, blk, fract.
  constructor; [split; [left; reflexivity|left; reflexivity|intros K; discriminate K]|].
  constructor; [split; [left; reflexivity|left; reflexivity|intros _; exists (u "_atom_site_[]"); split; [reflexivity|vm_compute; tauto]]|].
  constructor; [apply Uf|]. constructor; [apply Uf|].
  constructor; [split; [left; reflexivity|right; exists (u "_atom_site_label"), (u "[A-Z]"), (t "char"); repeat split|intros K; discriminate K]|].
  constructor; [split; [right; exists None, (Some num_c); split; [exact Logic.I|split; [exact num_c_ok|reflexivity]]|left; reflexivity|intros K; discriminate K]|].
  constructor.
Qed.
Definition d0_rows : list (str * str * value) := [(u "_atom_site_label_type", u "[A-Z]$", t "char")].
Lemma d0_types : own_types d0_1 d0_rows.
Proof.
  unfold d0_1, d0_new, this_one. unfold blk, fract. do 4 (apply ot_none; [reflexivity|]). apply (ot_some _ (tb a_label) _ _ _ (u "_atom_site_label") (u "[A-Z]") (t "char")); try reflexivity.
  apply ot_none; [reflexivity|]. constructor.
Qed.
Ltac no_overview := intros K; discriminate K.
Lemma d0_overviews : overviews d0_1 [u "atom_site"].
Proof.
  unfold d0_1, d0_new, this_one. unfold blk, fract. apply ov_none; [no_overview|].
  apply (ov_some _ (tb a_overview) _ _ _ 95%N (u "atom_site") [91; 93]%N); [reflexivity|reflexivity|cbn; intuition discriminate|].
  do 4 (apply ov_none; [no_overview|]). constructor.
Qed.
Lemma d0_cats : missing [] [u "atom_site"] [u "atom_site"].
Proof. apply ms_new; [intros []|]. constructor. Qed.
Example C87_meets : exists d', normal_all d0_1 base_found = Ret (d', Found (base_types ++ [t "_atom_site_label_type"]) (base_constructs ++ [t "[A-Z]$"]) (base_types ++ [t "char"]) [t "atom_site"])
  /\ Forall2 same_place d0_1 d'.
Proof. exact (C87_contents_partial d0_1 d0_rows _ _ d0_usable d0_types d0_overviews d0_cats). Qed.
Definition loaded_fract : table := match normal_one (tb (a_fract (t "_x"))) base_found with Ret (x, _) => x | Raise _ => [] end.
Definition one_def (n : str) (x : table) : cifdic := mkDic [(n, x)] [] (u "_type") [] [] [] [] [] [] [] [] [] [] [] [] [] [].
Example C87_range_meets : exists r, validate_enum_range (one_def (u "_x") loaded_fract) (u "_x") (VList [t "15"; t "0"; t "15.1"; t "?"]) = Ret r
  /\ verdict (within_ends (Some num_a) (Some num_b)) [t "15"; t "0"; t "15.1"; t "?"] r [].
Proof.
  destruct (normal_one_ok (tb (a_fract (t "_x"))) base_found) as (t1 & f1 & E & _).
  { split; [right; exists (Some num_a), (Some num_b); split; [exact num_a_ok|split; [exact num_b_ok|reflexivity]]|left; reflexivity|intros K; discriminate K]. }
  apply (C87_range base_found (tb (a_fract (t "_x"))) loaded_fract f1 (Some num_a) (Some num_b)).
  - exact num_a_ok.
  - exact num_b_ok.
  - intros a b A B. injection A as <-. injection B as <-. vm_compute. discriminate.
  - reflexivity.
  - split; [right; exists (Some num_a), (Some num_b); split; [exact num_a_ok|split; [exact num_b_ok|reflexivity]]|left; reflexivity|intros K; discriminate K].
  - unfold loaded_fract. rewrite E. reflexivity.
  - reflexivity.
  - constructor.
  - intros a A. cbn in A. repeat (destruct A as [<-|A]; [reflexivity|]). destruct A.
Qed.
Example C87_range_run : validate_enum_range (one_def (u "_x") loaded_fract) (u "_x") (VList [t "15"; t "0"; t "15.1"; t "?"]) = Ret (RFalse [t "15.1"] []).
Proof. vm_compute. reflexivity. Qed.
(** Numbers may be written with the exponents d and D, and such values are accepted as
    numbers in data; a range with such an end stops the loading of the dictionary. *)
Theorem C87_exponent_refuted : exists lo up t0 f0, proper lo /\ proper up /\ n_su lo = None /\ n_su up = None /\ tget n_range t0 = Some (VStr (range_text (Some lo) (Some up)))
  /\ normal_one t0 f0 = Raise ValueErr.
Proof.
  exists num_c, (mkNum false [1%N] None None (Some (68%N, None, [1%N]))), (tb [("_enumeration_range", t "5:1D1")]), base_found.
  split; [apply num_c_ok|]. split.
  { split; cbn; try (intros; discriminate); [repeat constructor|left; discriminate|]. intros l g x K. injection K as <- <- <-. split; [cbn; tauto|]. split; [repeat constructor|discriminate]. }
  split; [reflexivity|]. split; [reflexivity|]. split; vm_compute; reflexivity.
Qed.
(** A range that is not one of numbers stops the loading: after the message that it
    cannot be read, variables without a value are used. *)
Theorem C87_letters_refuted : exists t0 f0, tget n_range t0 = Some (t "a:z") /\ normal_one t0 f0 = Raise NameErr.
Proof. exists (tb [("_enumeration_range", t "a:z")]), base_found. split; [reflexivity|vm_compute; reflexivity]. Qed.
(** A range with the ends in the wrong order holds no number; its two ends pass. *)
Theorem C87_reversed_refuted : exists t0 t1 f0 f1 lo up, readable lo /\ readable up /\ tget n_range t0 = Some (VStr (range_text (Some lo) (Some up))) /\ normal_one t0 f0 = Ret (t1, f1)
  /\ (forall x, ~ between (Some lo) (Some up) x) /\ validate_enum_range (one_def (u "_x") t1) (u "_x") (VList [VStr (text lo); VStr (text up)]) = Ret RTrue.
Proof.
  pose (t0 := tb [("_enumeration_range", t "1.5E1:5")]).
  exists t0, (match normal_one t0 base_found with Ret (x, _) => x | Raise _ => [] end), base_found, (match normal_one t0 base_found with Ret (_, x) => x | Raise _ => base_found end), num_b, num_c.
  split; [exact num_b_ok|]. split; [exact num_c_ok|]. split; [reflexivity|]. split; [vm_compute; reflexivity|]. split.
  - intros x [A B]. cbn in A, B. assert ((number num_b <= number num_c)%Q) as K by (now apply Qle_trans with x). vm_compute in K. now apply K.
  - vm_compute. reflexivity.
Qed.

(** ** C88: categories *)
(** Every category that is named by a definition gets one if there is none; nothing
    else changes. *)
Theorem C88_categories d seen used new : NoDup (map fst d ++ map made_name new) -> (forall k, In k (map fst d) -> lower k = k) -> categories d used -> missing seen used new ->
  Forall (fun c => ~ In 32%N c /\ ~ In 9%N c /\ length c <= 71) new ->
  rogue_all (map fst d) d (map VStr seen) = Ret (d ++ map (fun c => (made_name c, made_def c)) new, map VStr (seen ++ new))
  /\ (forall c, In c used -> In c (seen ++ new)).
Proof.
  intros N L C M P. split; [now apply (rogue_ok d seen used new)|]. intros c H. apply in_or_app. destruct (missing_all _ _ _ M) as (A & _). now apply A.
Qed.
(** The whole dictionary: every definition is found under its identifier, completed,
    and every category knows which of its items must be present and which make its
    rows unique. *)
Theorem C88_load_partial d d1 rows ids cats extra : loadable d d1 rows ids cats extra -> exists D, load_ddl1 d = Ret D /\ well_listed D
  /\ k_keys D = map fst (said_by d1 ids) ++ map lower extra
  /\ (forall k t ov i, In (k, (t, ov), i) (combine d1 ids) -> k <> n_this ->
        exists t1 t', normalised t t1 /\ informed (said_by d1 ids) (lower i) t1 t' /\ defines D (lower i) (t', ov))
  /\ (forall c, In c extra -> exists t', informed (said_by d1 ids) (lower c) (fst (made_def c)) t' /\ defines D (lower c) (t', true))
  /\ (forall t ov, In (n_this, (t, ov)) d1 -> exists t1 t', normalised t t1 /\ has_types rows t1 t' /\ In (n_this, (t', ov)) (k_blocks D)).
Proof. exact (load_ok d d1 rows ids cats extra). Qed.
(** What a definition is known by is what finds it. *)
Theorem C88_found D x e : well_listed D -> defines D (lower x) e -> k_get x D = Ret e.
Proof. exact (get_id D x e). Qed.
Definition d0_ids : list str := map u ["on_this_dictionary"; "atom_site"; "_atom_site_fract_x"; "_atom_site_fract_y"; "_atom_site_label"; "_cell"].
Definition d0_extra : list str := map u ["category_overview"; "cell"].
Lemma d0_loadable : loadable d0 d0_1 d0_rows d0_ids [u "atom_site"] d0_extra.
Proof.
  split.
  - exists [this_one], d0_new. split; [exact d0_renamed|]. split; [reflexivity|exact d0_nodup].
  - exact d0_lower.
  - exact d0_usable.
  - exact d0_types.
  - exists [u "atom_site"]. split; [exact d0_overviews|exact d0_cats].
  - exists (map u ["category_overview"; "atom_site"; "atom_site"; "atom_site"; "cell"]). split.
    + unfold d0_1, d0_new, this_one, blk, fract. apply ct_none; [reflexivity|]. do 5 (apply ct_some; [reflexivity|]). constructor.
    + cbn [map]. apply ms_new; [cbn; intuition discriminate|]. do 3 (apply ms_old; [cbn; tauto|]). apply ms_new; [cbn; intuition discriminate|]. constructor.
  - repeat (constructor; [plain|]). constructor.
  - nodup.
  - exists (tb [("_dictionary_name", t "x.dic"); ("_dictionary_version", t "1")]), false. split; [now left|]. split; [no_overview|]. repeat split.
  - unfold d0_1, d0_new, this_one, blk, fract, d0_ids. cbn [map].
    constructor; [apply cl_key; [no_overview|reflexivity|reflexivity]|].
    constructor; [apply (cl_cat _ (tb a_overview) _ 95%N (u "atom_site") [91; 93]%N); [reflexivity|reflexivity|cbn; intuition discriminate]|].
    repeat (constructor; [apply cl_name; [no_overview|reflexivity|reflexivity]|]). constructor.
  - nodup.
  - unfold d0_1, d0_new, this_one, blk, fract.
    repeat (apply Forall_cons; [split; cbn [fst snd]; [first [intros _; eexists; reflexivity|intros [K|K]; [discriminate K|now elim K]]|first [left; reflexivity|right; eexists; reflexivity]]|]). apply Forall_nil.
  - intros k x ov c H E _. cbn [d0_1 d0_new this_one In] in H.
    repeat (destruct H as [H|H]; [injection H as <- <- <-; first [discriminate E|injection E as <-; vm_compute; reflexivity]|]). destruct H.
  - intros k x ov H. cbn [d0_1 d0_new this_one In] in H.
    repeat (destruct H as [H|H]; [injection H as <- <- <-; left; split; reflexivity|]). destruct H.
Qed.
Example C88_meets : exists D, load_ddl1 d0 = Ret D /\ exists x ov, defines D (u "atom_site") (x, ov)
  /\ tget m_list x = Some (VList [t "_atom_site_fract_x"; t "_atom_site_fract_y"]) /\ tget u_list x = Some (VList [t "_atom_site_label"]).
Proof.
  destruct (C88_load_partial _ _ _ _ _ _ d0_loadable) as (D & E & W & _ & Df & _). exists D. split; [exact E|].
  destruct (Df (u "_atom_site_[]") (tb a_overview) false (u "atom_site")) as (t1 & t' & Nm & [_ M U] & De).
  { right. left. reflexivity. }
  { intros K. discriminate K. }
  exists t', false. split; [exact De|]. split.
  - rewrite (M [u "_atom_site_fract_x"; u "_atom_site_fract_y"]); [reflexivity|]. cbv [d0_1 d0_new d0_ids this_one blk fract map said_by fst snd].
    repeat first [apply nd_in; [reflexivity|reflexivity|]|apply nd_out; [first [left; intros K; discriminate K|right; intros K; discriminate K]|]]. constructor.
  - rewrite (U [u "_atom_site_label"; u "_atom_site_label"] [u "_atom_site_label"]); [reflexivity| |].
    + cbv [d0_1 d0_new d0_ids this_one blk fract map said_by fst snd].
      repeat first [apply uq_in; [reflexivity|reflexivity|]|apply uq_out; [first [left; reflexivity|right; intros K; discriminate K]|]]. constructor.
    + apply ms_new; [intros []|]. apply ms_old; [now left|]. constructor.
Qed.
(** The marker for descriptions of categories becomes a category itself. *)
Theorem C88_marker_refuted : exists d D e, load_ddl1 d = Ret D /\ defines D n_overview e.
Proof.
  destruct (C88_load_partial _ _ _ _ _ _ d0_loadable) as (D & E & W & _ & _ & Ex & _). destruct (Ex (u "category_overview")) as (t' & _ & De); [now left|].
  exists d0, D, (t', true). split; [exact E|exact De].
Qed.
(** A category that is named with other capitals than in its description: the
    description is replaced by an empty one. *)
Theorem C88_capitals_refuted : exists d D x, load_ddl1 d = Ret D /\ In (u "atom", (x, false)) d /\ tget n_name x = Some (t "_atom_[]") /\ tget (u "_definition") x = Some (t "all about atoms")
  /\ exists x', k_get (u "atom") D = Ret x' /\ tget (u "_definition") (fst x') = None.
Proof.
  pose (d := [this_one; blk "atom" [("_name", t "_atom_[]"); ("_category", t "category_overview"); ("_type", t "null"); ("_definition", t "all about atoms")];
              blk "b" [("_name", t "_atom_label"); ("_category", t "Atom"); ("_type", t "char")]]).
  exists d, (match load_ddl1 d with Ret D => D | Raise _ => DDic [] [] [] [] end), (tb [("_name", t "_atom_[]"); ("_category", t "category_overview"); ("_type", t "null"); ("_definition", t "all about atoms")]).
  split; [vm_compute; reflexivity|]. split; [right; now left|]. split; [reflexivity|]. split; [reflexivity|].
  exists (match k_get (u "atom") (match load_ddl1 d with Ret D => D | Raise _ => DDic [] [] [] [] end) with Ret x => x | Raise _ => ([], false) end).
  split; vm_compute; reflexivity.
Qed.
(** Two descriptions of one category, as those in the core dictionary and in an
    extension of it (_x_[] and _x_[ms]), stop the loading. *)
Theorem C88_two_refuted : exists d, load_ddl1 d = Raise CifErr /\ exists k1 k2 x1 x2, In (k1, (x1, false)) d /\ In (k2, (x2, false)) d
  /\ tget n_name x1 = Some (t "_atom_[]") /\ tget n_name x2 = Some (t "_atom_[ms]").
Proof.
  exists [this_one; blk "a" [("_name", t "_atom_[]"); ("_category", t "category_overview"); ("_type", t "null")]; blk "b" [("_name", t "_atom_[ms]"); ("_category", t "category_overview"); ("_type", t "null")]].
  split; [vm_compute; reflexivity|]. exists (u "a"), (u "b"), (tb [("_name", t "_atom_[]"); ("_category", t "category_overview"); ("_type", t "null")]), (tb [("_name", t "_atom_[ms]"); ("_category", t "category_overview"); ("_type", t "null")]).
  split; [right; now left|]. split; [right; right; now left|]. split; reflexivity.
Qed.

(** ** C89: DDL2 *)
(** Definitions with one name each and without other names: the dictionary loads as it
    is, and every definition is found under its identifier. *)
Theorem C89_loads_partial roots d ids : Forall2 (known_as n_cat_id m_name) d ids -> NoDup (map lower ids) -> NoDup (map fst d) -> (forall k, In k (map fst d) -> lower k = k) ->
  Forall (fun x : str * entry => few_names (fst (snd x)) /\ tget m_alias (fst (snd x)) = None) d ->
  exists D, load_ddl2 roots d = Ret D /\ k_blocks D = d /\ well_listed D
    /\ (forall k e i, In (k, e, i) (combine d ids) -> ~ In k (map lower roots) -> defines D (lower i) e)
    /\ (forall i, In i (k_keys D) -> exists k e j, In (k, e, j) (combine d ids) /\ ~ In k (map lower roots) /\ i = lower j).
Proof. exact (ddl2_loads roots d ids). Qed.
(** No dictionary is changed by being loaded, and none loads that has other names or
    several names in a definition. *)
Theorem C89_unchanged roots d D : (forall k t ov, In (k, (t, ov)) d -> tget n_cat_id t <> None -> few_names t) -> load_ddl2 roots d = Ret D ->
  k_blocks D = d /\ (forall i t, In i (k_keys D) -> k_table i D = Ret t -> tget m_alias t = None \/ exists v, tget m_alias t = Some v /\ no_element v)
  /\ (forall k t ov l, In (k, (t, ov)) d -> tget n_cat_id t = None -> tget m_name t <> Some (VList l) /\ tget m_name t <> Some (VSL l)).
Proof. exact (ddl2_same roots d D). Qed.
Definition d2 : defs := [blk "x.dic" [("_dictionary.title", t "x.dic")]; blk "atom" [("_category.id", t "atom")]; blk "_atom.id" [("_item.name", t "_atom.id"); ("_item.category_id", t "atom"); ("_item.mandatory_code", t "yes")]].
Example C89_meets : exists D, load_ddl2 [u "x.dic"] d2 = Ret D /\ k_blocks D = d2 /\ exists e, defines D (u "_atom.id") e.
Proof.
  destruct (C89_loads_partial [u "x.dic"] d2 (map u ["x.dic"; "atom"; "_atom.id"])) as (D & E & B & _ & Df & _).
  - unfold d2, blk. cbn [map]. constructor; [apply ka_key; reflexivity|]. constructor; [apply ka_cat; reflexivity|]. constructor; [apply ka_name; reflexivity|]. constructor.
  - nodup.
  - nodup.
  - intros k H. cbn [d2 map fst blk In] in H. repeat (destruct H as [<-|H]; [vm_compute; reflexivity|]). destruct H.
  - unfold d2, blk. repeat (apply Forall_cons; [split; [intros l [K|K]; discriminate K|reflexivity]|]). apply Forall_nil.
  - exists D. split; [exact E|]. split; [exact B|]. eexists. apply (Df (u "_atom.id") _ (u "_atom.id")); [right; right; left; reflexivity|]. cbn. intros [K|[]]. discriminate K.
Qed.
(** A definition for an item and its children, with all their names in a loop, is what
    the steps after the loading of names are for; it stops the loading. *)
Theorem C89_children_refuted : exists d x, In (u "_atom.id", (x, false)) d /\ tget m_name x = Some (VList [t "_atom.id"; t "_bond.atom_id"]) /\ load_ddl2 [u "x.dic"] d = Raise TypeErr.
Proof.
  pose (x := tb [("_item.name", VList [t "_atom.id"; t "_bond.atom_id"]); ("_item.category_id", VList [t "atom"; t "bond"]); ("_item.mandatory_code", VList [t "yes"; t "yes"])]).
  exists [blk "x.dic" [("_dictionary.title", t "x.dic")]; (u "_atom.id", (x, false))], x. split; [right; now left|]. split; [reflexivity|vm_compute; reflexivity].
Qed.
(** A definition with another name for its item stops the loading. *)
Theorem C89_alias_refuted : exists d x, In (u "_atom.id", (x, false)) d /\ tget m_alias x = Some (t "_atom_site_label") /\ load_ddl2 [u "x.dic"] d = Raise KeyErr.
Proof.
  pose (x := tb [("_item.name", t "_atom.id"); ("_item.category_id", t "atom"); ("_item.mandatory_code", t "yes"); ("_item_aliases.alias_name", t "_atom_site_label")]).
  exists [blk "x.dic" [("_dictionary.title", t "x.dic")]; (u "_atom.id", (x, false))], x. split; [right; now left|]. split; [reflexivity|vm_compute; reflexivity].
Qed.

(** A list of types that the dictionary brings itself is not replaced in silence: it is
    refused. *)
Theorem C88_types_kept f (d : defs) (x : table) att : dget str_eqb n_this d = Some (x, false) -> In att [u "_item_type_list.code"; u "_item_type_list.construct"; u "_item_type_list.primitive_code"] -> tmem att x = true ->
  store_types f d = Raise StarErr.
Proof.
  intros E H M. assert (@dget str entry str_eqb n_this d = Some (x, false)) as E' by exact E. unfold store_types. rewrite E'. unfold set_locked. cbn [fst snd negb]. rewrite !andb_true_r.
  assert (forall a b v y, lower a <> lower b -> tmem a (put b v y) = tmem a y) as Pt.
  { intros a b v y N0. unfold tmem, tget, put. rewrite (dget_dset_neq str_eqb str_eqb_spec) by exact N0. reflexivity. }
  destruct (tmem (u "_item_type_list.code") x) eqn:M1; [reflexivity|]. cbn [obind fst snd]. rewrite andb_true_r, Pt by discriminate.
  destruct (tmem (u "_item_type_list.construct") x) eqn:M2; [reflexivity|]. cbn [obind fst snd]. rewrite andb_true_r, !Pt by discriminate.
  destruct (tmem (u "_item_type_list.primitive_code") x) eqn:M3; [reflexivity|]. exfalso. cbn [In] in H. destruct H as [<-|[<-|[<-|[]]]]; congruence.
Qed.
Example C88_types_meets : store_types base_found [blk "on_this_dictionary" [("_item_type_list.construct", VList [])]] = Raise StarErr.
Proof. apply (C88_types_kept _ _ (tb [("_item_type_list.construct", VList [])]) (u "_item_type_list.construct")); [reflexivity|cbn; tauto|reflexivity]. Qed.

Definition ddl_theorems := (C86_names_partial, C86_same_name_refuted, C86_capitals_refuted, C87_contents_partial, C87_range, C87_exponent_refuted, C87_letters_refuted, C87_reversed_refuted,
  C88_categories, C88_load_partial, C88_found, C88_types_kept, C88_marker_refuted, C88_capitals_refuted, C88_two_refuted, C89_loads_partial, C89_unchanged, C89_children_refuted, C89_alias_refuted).
Print Assumptions ddl_theorems.
