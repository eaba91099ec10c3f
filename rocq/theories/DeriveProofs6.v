(** Aliases and defaults. *)
From Coq Require Import String Ascii List NArith ZArith Bool PeanoNat Lia Permutation.
From Verif Require Import PyBase PyFacts StarBlockModel StarBlockSpec StarBlockProofs StarBlockProofs2 StarBlockProofs3 StarBlockProofs4 LoopModel ValidateModel TreeModel DeriveModel DeriveSpec DeriveProofs DeriveProofs3 DeriveProofs4 DeriveProofs5.
Import ListNotations.

Lemma first_present {A} (f : A -> bool) pre k post : (forall x, In x pre -> f x = false) -> f k = true -> exists r, filter f (pre ++ k :: post) = k :: r.
Proof. intros H K. rewrite filter_app, (filter_none f pre H). cbn [filter app]. rewrite K. eauto. Qed.
(** The item can be read as it is. *)
Definition plain (d : ddict) (prov : bool) (k : str) (raw : value) (b : block) : Prop :=
  get_item k b = Ret raw /\ (prov = false \/ dmem str_eqb (lower k) (dd_defs d) = false).
Lemma getitem_plain d cache D prov k raw b : plain d prov k raw b -> getitem d cache D prov k b = (b, Ok raw).
Proof.
  intros [G P]. unfold getitem. destruct (str_eqb k (u "saves")) eqn:S. { unfold get_item in G. rewrite S in G. discriminate. }
  destruct (full_of_item _ _ _ G) as [f ->]. destruct P as [-> | ->]; [|reflexivity]. destruct (negb _); [reflexivity|]. destruct f; reflexivity.
Qed.
Lemma under_plain d cache D prov k raw key b : plain d prov k raw b -> under d (getitem d cache D prov) k key b = match change_type d key raw with Ret w => (b, Ok (inl w)) | Raise e => (b, Err (XPy e)) end.
Proof. intros P. unfold under, bind, lift. rewrite (getitem_plain _ _ _ _ _ _ _ P). destruct (change_type d key raw); reflexivity. Qed.
Lemma read_resolved n d cache prov key b o : str_eqb key (u "saves") = false -> has_key key b = false ->
  (forall D, resolve d (getitem d cache D prov) key b = match o with Ret w => (b, Ok (inl w)) | Raise e => (b, Err (XPy e)) end) -> read (S n) d cache prov key b = lift o b.
Proof.
  intros S K R. unfold read, getitem at 1. rewrite S, (absent_full _ _ K). unfold attempts. cbn [derive]. change (mem str_eqb key []) with false. cbv beta iota zeta. unfold body, bind at 1.
  match goal with |- context [resolve d (getitem d cache ?D prov) key b] => rewrite (R D) end. destruct o; reflexivity.
Qed.
Theorem alias_old n d cache prov key pre k post b raw : key <> u "saves" -> has_key key b = false -> own_aliases d key = pre ++ k :: post -> (forall x, In x pre -> has_key x b = false) ->
  plain d prov k raw b -> read (S n) d cache prov key b = lift (change_type d key raw) b.
Proof.
  intros S K A P Q. apply read_resolved; auto. { destruct (str_eqb_spec key (u "saves")); [contradiction|reflexivity]. }
  intros D. unfold resolve. rewrite A. destruct (first_present (fun k => has_key k b) pre k post P) as [r ->]. { destruct Q as [G _]. now apply get_item_key in G. } now rewrite (under_plain _ _ _ _ _ _ _ _ Q).
Qed.
Lemma unique_filter {A} (f : A -> bool) l x : In x l -> f x = true -> NoDup l -> (forall y, In y l -> f y = true -> y = x) -> filter f l = [x].
Proof.
  induction l as [|y l IH]; [intros []|]. intros I F N U. inversion N as [|? ? N1 N2]; subst. cbn [filter]. destruct (f y) eqn:E.
  - assert (y = x) as -> by (apply U; [now left|exact E]). f_equal. apply filter_none. intros z J. destruct (f z) eqn:G; [|reflexivity]. assert (z = x) as -> by (apply U; [now right|exact G]). contradiction.
  - destruct I as [->|I]; [congruence|]. apply IH; auto. intros z J. apply U. now right.
Qed.
(** [key'] is the one definition that lists [key] among its aliases. *)
Definition alias_of (d : ddict) (key key' : str) (v : value) : Prop :=
  own_aliases d key = [] /\ NoDup (alias_table d) /\ In (key', v) (alias_table d) /\ name_in key v = true /\ forall a, In a (alias_table d) -> name_in key (snd a) = true -> a = (key', v).
Lemma alias_of_filter d key key' v : alias_of d key key' v -> filter (fun a => name_in key (snd a)) (alias_table d) = [(key', v)].
Proof. intros (_ & N & I & M & U). apply unique_filter; auto. Qed.
Theorem alias_new n d cache prov key key' v b raw : key <> u "saves" -> has_key key b = false -> alias_of d key key' v -> plain d prov key' raw b ->
  read (S n) d cache prov key b = lift (change_type d key' raw) b.
Proof.
  intros S K A Q. apply read_resolved; auto. { destruct (str_eqb_spec key (u "saves")); [contradiction|reflexivity]. }
  intros D. unfold resolve. rewrite (alias_of_filter _ _ _ _ A). destruct A as (-> & _). cbn [filter]. assert (has_key key' b = true) as -> by (destruct Q as [G _]; now apply get_item_key in G). now rewrite (under_plain _ _ _ _ _ _ _ _ Q).
Qed.
Theorem alias_sibling n d cache prov key key' v pre k post b raw : key <> u "saves" -> has_key key b = false -> alias_of d key key' v -> has_key key' b = false ->
  names_in v = pre ++ k :: post -> (forall x, In x pre -> has_key x b = false) -> plain d prov k raw b -> read (S n) d cache prov key b = lift (change_type d key' raw) b.
Proof.
  intros S K A K' E P Q. apply read_resolved; auto. { destruct (str_eqb_spec key (u "saves")); [contradiction|reflexivity]. }
  intros D. unfold resolve. rewrite (alias_of_filter _ _ _ _ A). destruct A as (-> & _). cbn [filter]. rewrite K', E. destruct (first_present (fun k => has_key k b) pre k post P) as [r ->]. { destruct Q as [G _]. now apply get_item_key in G. } now rewrite (under_plain _ _ _ _ _ _ _ _ Q).
Qed.
Theorem alias_twice n d cache prov key a1 a2 b : key <> u "saves" -> has_key key b = false -> (forall k, In k (own_aliases d key) -> has_key k b = false) ->
  In a1 (alias_table d) -> In a2 (alias_table d) -> a1 <> a2 -> name_in key (snd a1) = true -> name_in key (snd a2) = true ->
  read (S n) d cache prov key b = (b, Err (XPy CifErr)).
Proof.
  intros S K O I1 I2 N M1 M2. change (b, Err (XPy CifErr)) with (lift (A:=value) (Raise CifErr) b). apply read_resolved; auto. { destruct (str_eqb_spec key (u "saves")); [contradiction|reflexivity]. }
  intros D. unfold resolve. rewrite (filter_none _ _ O).
  assert (In a1 (filter (fun a => name_in key (snd a)) (alias_table d))) as J1 by now apply filter_In. assert (In a2 (filter (fun a => name_in key (snd a)) (alias_table d))) as J2 by now apply filter_In.
  destruct (filter _ (alias_table d)) as [|[k v] [|]]; [contradiction| |reflexivity]. destruct J1 as [<-|[]]. destruct J2 as [J2|[]]. congruence.
Qed.

(** ** Defaults *)
Lemma derive_first n d cache prov allow st key b : derive (S n) d cache [] false prov allow st key b =
  match body d (fun p => getitem d cache (derive n d cache [key] allow p) p) (fun c => derive n d cache [key] allow prov true true c) prov st allow key b with
  | (b1, Err XDerivation) => (b1, Err XFailure) | other => other end.
Proof. reflexivity. Qed.
Definition text_default (t : table) : option value := match tget (u "_enumeration.default") t with Some v => if truthy v then Some v else None | None => None end.
Lemma has_head d cat b n p : filter (fun a => has_or_alias d a b) (cat_names d cat) = n :: p -> has_key n b = true -> exists r, filter (fun a => has_key a b) (cat_names d cat) = n :: r.
Proof.
  induction (cat_names d cat) as [|x l IH]; [discriminate|]. cbn [filter]. unfold has_or_alias at 1. destruct (has_key x b) eqn:E; cbn [orb].
  - intros [= -> _] _. eauto.
  - destruct (existsb _ _); [intros [= -> _]; congruence|]. exact IH.
Qed.
(** A column filled with the default joins the loop of its category. *)
Theorem default_column n d prov key t cat ct m p col dv w b : WF b -> has_key key b = false -> never_alias d key -> def_of d key = Ret t -> is_item_def t = true -> category_of d key = Ret cat ->
  dd_methods d (lower key) = [] -> def_of d cat = Ret ct -> is_loop ct = true -> filter (fun a => has_or_alias d a b) (cat_names d cat) = m :: p ->
  plain d prov m (VList col) b -> find_loop m b <> None -> text_default t = Some dv -> change_type d key dv = Ret w -> w <> VNone ->
  check_data_name (b_max b) (b_uni b) key = Ret tt -> acceptable_value (b_uni b) (VList (repeat w (length col))) -> col <> [] ->
  exists b1, read (S n) d true prov key b = (b1, Ok (VList (repeat w (length col)))) /\ get_item key b1 = Ret (VList (repeat w (length col))) /\ find_loop key b1 = find_loop m b.
Proof.
  intros W K NA D T EC EM DC L FP Q FL TD CT WN CN AV CE.
  assert (str_eqb key (u "saves") = false) as S. { destruct (check_data_name_us _ _ _ CN) as (r & ->). reflexivity. }
  assert (has_key m b = true) as HM by (destruct Q as [G _]; now apply get_item_key in G).
  assert (forall ask c allow, body d ask c prov true allow key b = bind (if allow then default d (ask prov) key t else ret (VNone, false)) (fun vd => match fst vd with VNone => err XDerivation | v => bind (adjust d (ask prov) cat (m :: p) v (snd vd)) (fun wl => if negb (empty_list (fst wl)) && true then store_result d key cat (fst wl) (snd wl) (snd vd) else ret (fst wl)) end) b) as B.
  { intros ask c allow. unfold body. unfold bind at 1. rewrite (resolve_self _ _ _ _ (never_no_alias _ _ b NA)). unfold bind at 1, lift at 1. rewrite EC. cbv zeta. unfold bind at 1, look at 1. rewrite FP. unfold bind at 1, ret at 1. unfold bind at 1, look at 1. rewrite FP. rewrite EM. cbn [methods].
    unfold bind at 1, ret at 1. destruct allow; [|reflexivity]. unfold bind at 2, lift at 1. rewrite D. reflexivity. }
  unfold read, getitem at 1. rewrite S, (absent_full _ _ K). unfold attempts. rewrite derive_first, B. cbn iota. unfold bind at 1, ret at 1. cbn [fst snd err]. unfold err at 1.
  rewrite derive_first, B. cbn iota. unfold bind at 1.
  assert (forall ask, default d ask key t b = (b, Ok (w, true))) as DF.
  { intros ask. unfold default. unfold text_default in TD. destruct (tget (u "_enumeration.default") t) as [v0|]; [|discriminate]. destruct (truthy v0); [|discriminate]. injection TD as ->. unfold bind, lift. rewrite CT. reflexivity. }
  rewrite DF. cbn [fst snd].
  assert (forall D0, adjust d (getitem d true D0 prov) cat (m :: p) w true b = (b, Ok (VList (repeat w (length col)), true))) as AD.
  { intros D0. unfold adjust. unfold bind at 1, lift at 1. rewrite DC, L. unfold bind at 1. rewrite (getitem_plain _ _ _ _ _ _ _ Q). reflexivity. }
  destruct (set_item_succeeds key (VList (repeat w (length col))) b CN AV) as [b2 E2]. { congruence. } apply set_item_ok in E2.
  destruct (has_head _ _ _ _ _ FP HM) as [r HR].
  assert (lower m <> lower key) as LM. { intros X. unfold has_key in *. rewrite X in HM. congruence. }
  destruct (find_loop m b) as [j|] eqn:FJ; [|congruence]. clear FL.
  assert (W2 : WF b2). { change b2 with (fst (b2, @Ret unit tt)). rewrite <- E2. now apply add_item_wf. }
  assert (SM : same_at (lower m) b b2). { change b2 with (fst (b2, @Ret unit tt)). rewrite <- E2. now apply add_item_same. }
  assert (FJ2 : find_loop m b2 = Some j). { destruct SM as (_ & _ & X). rewrite !find_loop_lower in X. congruence. }
  assert (GM : get_item m b2 = Ret (VList col)). { destruct Q as [G _]. rewrite <- G. apply get_item_data, SM. }
  pose proof (added_read _ _ _ _ E2) as GK.
  destruct (wf_loop_get b2 m j W2 FJ2) as (l1 & names & l2 & X1 & X2 & X3 & X4 & X5).
  assert (find_loop key b2 = None) as NK.
  { apply add_item_ok in E2 as (e & _ & _ & _ & _ & ->). unfold find_loop. change (b_loops (store_item key _ _ b)) with (b_loops b). destruct (find_loop key b) as [q|] eqn:FK; [|exact FK]. apply wf_find_loop_key in FK; auto. congruence. }
  assert (mem str_eqb (lower key) names = false) as MK.
  { apply (mem_false _ str_eqb_spec). intros I. apply find_loop_None in NK. apply NK. apply in_concat. exists names. split; [|exact I]. rewrite X1, map_app. apply in_or_app. right. now left. }
  assert (exists b3, add_loop_name m key b2 = (b3, Ret tt) /\ get_item key b3 = Ret (VList (repeat w (length col))) /\ find_loop key b3 = Some j) as (b3 & A3 & G3 & F3).
  { unfold add_loop_name. rewrite FJ2, X2, MK, GM, GK. cbn [obind py_len]. rewrite repeat_length, Nat.eqb_refl. cbn [negb]. eexists. split; [reflexivity|]. split; [rewrite <- GK; now apply get_item_data|].
    unfold find_loop, set_loops, set_order. cbn [b_loops].
    assert (forall ls, (forall kl, In kl ls -> ~ In (lower key) (snd kl)) -> In j (map fst ls) -> option_map fst (find (loop_has (lower key)) (dset Z.eqb j (names ++ [lower key]) ls)) = Some j) as FD.
    { intros ls. induction ls as [|[q ns] ls IH]; intros N I; [contradiction|]. cbn [dset]. destruct (Z.eqb_spec j q) as [<-|NE].
      - cbn [find]. unfold loop_has at 1. cbn [snd]. replace (mem str_eqb (lower key) (names ++ [lower key])) with true; [reflexivity|]. symmetry. apply (mem_In _ str_eqb_spec), in_or_app. right. now left.
      - cbn [find]. unfold loop_has at 1. cbn [snd]. replace (mem str_eqb (lower key) ns) with false by (symmetry; apply (mem_false _ str_eqb_spec); apply (N (q, ns)); now left). apply IH; [intros kl J; apply N; now right|]. destruct I as [I|I]; [cbn [fst] in I; congruence|exact I]. }
    apply FD.
    - intros [q ns] J. apply in_map_iff in J as ([q' ns'] & E & J). cbn [fst snd] in E. injection E as -> <-. cbn [snd].
      assert (~ In (lower key) ns') as NN. { intros I. apply find_loop_None in NK. apply NK. apply in_concat. exists ns'. split; [now apply (in_map snd) in J|exact I]. }
      replace (mem str_eqb (lower key) ns') with false by (symmetry; now apply (mem_false _ str_eqb_spec)). exact NN.
    - rewrite map_map. cbn [fst]. change (In j (map fst (b_loops b2))). rewrite X1, map_app. apply in_or_app. right. now left. }
  assert (store_result d key cat (VList (repeat w (length col))) true true b = (b3, Ok (VList (repeat w (length col))))) as SR.
  { unfold store_result, bind at 1, lift at 1. rewrite D, T. unfold store_looped. unfold bind at 1, lift at 1. rewrite EC. unfold bind at 1, ret at 1. unfold bind at 1, look at 1. rewrite HR. unfold bind at 1, change at 1. rewrite E2. unfold bind at 1, change at 1. rewrite A3. reflexivity. }
  exists b3. split; [|split; auto].
  assert (empty_list (VList (repeat w (length col))) = false) as EL. { destruct col; [contradiction|reflexivity]. }
  destruct w; try contradiction; unfold bind at 1; rewrite AD; cbn [fst snd]; rewrite EL; cbn [negb andb]; rewrite SR; reflexivity.
Qed.
