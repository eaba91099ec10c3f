(** Reading with more fuel, and with a dictionary that differs in its defaults only. *)
From Coq Require Import String Ascii List NArith ZArith Bool PeanoNat Lia.
From Verif Require Import PyBase PyFacts StarBlockModel LoopModel ValidateModel TreeModel DeriveModel DeriveSpec.
Import ListNotations.
Open Scope nat_scope.

Definition leq {A} (m1 m2 : act A) : Prop := forall b, snd (m1 b) = Err XFuel \/ m1 b = m2 b.
Lemma leq_refl {A} (m : act A) : leq m m.
Proof. intros b. now right. Qed.
Lemma leq_bind {A B} (m1 m2 : act A) (f1 f2 : A -> act B) : leq m1 m2 -> (forall a, leq (f1 a) (f2 a)) -> leq (bind m1 f1) (bind m2 f2).
Proof.
  intros H F b. unfold bind. destruct (H b) as [E| ->].
  - left. destruct (m1 b) as [b1 [a|x]]; [discriminate E|]. cbn in E. injection E as ->. reflexivity.
  - destruct (m2 b) as [b1 [a|x]]; [apply F|now right].
Qed.
Lemma leq_bind_same {A B} (m : act A) (f1 f2 : A -> act B) : (forall a, leq (f1 a) (f2 a)) -> leq (bind m f1) (bind m f2).
Proof. intros H. apply leq_bind; [apply leq_refl|exact H]. Qed.
Lemma bind_ext {A B} (m : act A) (f1 f2 : A -> act B) b : (forall a b, f1 a b = f2 a b) -> bind m f1 b = bind m f2 b.
Proof. intros H. unfold bind. destruct (m b) as [b1 [a|x]]; auto. Qed.
Lemma bind_ext2 {A B} (m1 m2 : act A) (f1 f2 : A -> act B) b : m1 b = m2 b -> (forall a b, f1 a b = f2 a b) -> bind m1 f1 b = bind m2 f2 b.
Proof. intros E H. unfold bind. rewrite E. destruct (m2 b) as [b1 [a|x]]; auto. Qed.

(** ** Dictionaries that differ in their defaults *)
Definition same_def (a b : str * table) : Prop := fst a = fst b /\ forall att, default_attr (lower att) = false -> tget att (snd a) = tget att (snd b).
Record agree (d1 d2 : ddict) : Prop := mkAgree {
  a_methods : forall k, dd_methods d1 k = dd_methods d2 k;
  a_conv : forall k v, dd_conv d1 k v = dd_conv d2 k v;
  a_object : forall c o, dd_object d1 c o = dd_object d2 c o;
  a_set : forall l, dd_set d1 l = dd_set d2 l;
  a_int : forall v, dd_int d1 v = dd_int d2 v;
  a_defs : Forall2 same_def (dd_defs d1) (dd_defs d2)
}.
Lemma agree_refl d : agree d d.
Proof. split; auto. induction (dd_defs d); constructor; auto. now split. Qed.
Lemma agree_sym d1 d2 : agree d1 d2 -> agree d2 d1.
Proof. intros [M C O S N D]. split; auto. induction D as [|x y l1 l2 [E T] _ IH]; constructor; auto. split; [easy|]. intros. symmetry. auto. Qed.
Lemma dget_filter (p : str -> bool) k (t : table) : p k = true -> dget str_eqb k (filter (fun av => p (fst av)) t) = dget str_eqb k t.
Proof.
  intros P. induction t as [|[k' v] t IH]; [reflexivity|]. cbn [filter dget fst]. destruct (str_eqb_spec k k') as [->|N].
  - rewrite P. cbn [dget]. now rewrite str_eqb_refl.
  - destruct (p k'); [cbn [dget]; destruct (str_eqb_spec k k'); [contradiction|exact IH]|exact IH].
Qed.
Lemma agree_no_defaults d : agree (no_defaults d) d.
Proof.
  split; auto. unfold no_defaults. cbn [dd_defs]. induction (dd_defs d) as [|[k t] l IH]; constructor; auto. split; [reflexivity|]. intros att H. cbn [fst snd]. unfold tget.
  apply (dget_filter (fun a => negb (default_attr a))). now rewrite H.
Qed.

Section Agree.
Variables d1 d2 : ddict.
Hypothesis A : agree d1 d2.
Lemma same_defs k : (dget str_eqb k (dd_defs d1) = None /\ dget str_eqb k (dd_defs d2) = None) \/
  exists t1 t2, dget str_eqb k (dd_defs d1) = Some t1 /\ dget str_eqb k (dd_defs d2) = Some t2 /\ forall att, default_attr (lower att) = false -> tget att t1 = tget att t2.
Proof.
  destruct A as [_ _ _ _ _ D]. induction D as [|[k1 t1] [k2 t2] l1 l2 [E T] _ IH]; [now left|]. cbn [fst snd] in E, T. subst k2. cbn [dget]. destruct (str_eqb k k1); [right; eauto|exact IH].
Qed.
Lemma same_mem k : dmem str_eqb k (dd_defs d1) = dmem str_eqb k (dd_defs d2).
Proof. unfold dmem. destruct (same_defs k) as [[-> ->]|(t1 & t2 & -> & -> & _)]; reflexivity. Qed.
Lemma same_alias : alias_table d1 = alias_table d2.
Proof.
  unfold alias_table. destruct A as [_ _ _ _ _ D]. induction D as [|[k1 t1] [k2 t2] l1 l2 [E T] _ IH]; [reflexivity|]. cbn [fst snd] in E, T. subst k2. cbn [flat_map fst snd]. rewrite T by reflexivity. now rewrite IH.
Qed.
Lemma same_own key : own_aliases d1 key = own_aliases d2 key.
Proof. unfold own_aliases. now rewrite same_alias. Qed.
Lemma same_has key b : has_or_alias d1 key b = has_or_alias d2 key b.
Proof. unfold has_or_alias. now rewrite same_own. Qed.
Lemma same_def_of key : (exists e, def_of d1 key = Raise e /\ def_of d2 key = Raise e) \/
  exists t1 t2, def_of d1 key = Ret t1 /\ def_of d2 key = Ret t2 /\ forall att, default_attr (lower att) = false -> tget att t1 = tget att t2.
Proof. unfold def_of. destruct (same_defs (lower key)) as [[-> ->]|(t1 & t2 & -> & -> & H)]; [left; eauto|right; eauto]. Qed.
Lemma each_ext f g l : (forall x, f x = g x) -> each f l = each g l.
Proof. intros H. induction l as [|x l IH]; [reflexivity|]. cbn [each]. now rewrite H, IH. Qed.
Lemma same_change key v : change_type d1 key v = change_type d2 key v.
Proof.
  unfold change_type. destruct (py_eq v query); [reflexivity|]. destruct (same_def_of key) as [(e & -> & ->)|(t1 & t2 & -> & -> & _)]; [reflexivity|]. cbn [obind].
  destruct v; try apply (a_conv _ _ A). rewrite (each_ext _ (dd_conv d2 (lower key)) l); [reflexivity|]. intros. apply (a_conv _ _ A).
Qed.
Lemma same_category key : category_of d1 key = category_of d2 key.
Proof.
  unfold category_of. destruct (same_def_of key) as [(e & -> & ->)|(t1 & t2 & -> & -> & T)]; [reflexivity|]. cbn [obind]. now rewrite T by reflexivity.
Qed.
Lemma same_names cat : cat_names d1 cat = cat_names d2 cat.
Proof.
  unfold cat_names. destruct A as [_ _ _ _ _ D]. induction D as [|[k1 t1] [k2 t2] l1 l2 [E T] _ IH]; [reflexivity|]. cbn [fst snd] in E, T. subst k2. cbn [filter fst snd].
  rewrite T by reflexivity. destruct (veq_text _ _); cbn [map fst]; now rewrite IH.
Qed.
Lemma same_immediate cat : immediate_children (dd_defs d1) cat = immediate_children (dd_defs d2) cat.
Proof.
  unfold immediate_children. destruct A as [_ _ _ _ _ D].
  assert (forall f1 f2 : (str * table) -> outcome bool, (forall a b, same_def a b -> f1 a = f2 b) ->
    obind (filterM f1 (dd_defs d1)) (fun l => Ret (map fst l)) = obind (filterM f2 (dd_defs d2)) (fun l => Ret (map fst l))) as G.
  { intros f1 f2 F. induction D as [|x y l1 l2 S _ IH]; [reflexivity|]. cbn [filterM]. rewrite (F _ _ S). destruct (f2 y) as [c|]; [|reflexivity]. cbn [obind].
    destruct (filterM f1 l1), (filterM f2 l2); cbn [obind] in *; try discriminate IH.
    - injection IH as IH. destruct c; cbn [map]; destruct S as [E _]; congruence.
    - congruence. }
  apply G. intros a b [_ T]. unfold cat_of. now rewrite T by reflexivity.
Qed.
Lemma same_names_in_cat cat : names_in_cat (dd_defs d1) cat = names_in_cat (dd_defs d2) cat.
Proof.
  unfold names_in_cat. rewrite same_immediate. destruct (immediate_children _ cat) as [kids|]; [|reflexivity]. cbn [obind]. f_equal. apply filter_ext. intros k.
  destruct (same_defs k) as [[-> ->]|(t1 & t2 & -> & -> & T)]; [reflexivity|]. now rewrite T by reflexivity.
Qed.
Lemma same_key_names l : key_names d1 l = key_names d2 l.
Proof.
  induction l as [|n l IH]; [reflexivity|]. cbn [key_names]. destruct (same_def_of n) as [(e & -> & ->)|(t1 & t2 & -> & -> & T)]; [reflexivity|]. cbn [obind]. rewrite IH.
  destruct (key_names d2 l); [|reflexivity]. cbn [obind]. now rewrite T by reflexivity.
Qed.
Lemma same_store_looped key v df b : store_looped d1 key v df b = store_looped d2 key v df b.
Proof.
  unfold store_looped. rewrite same_category. apply bind_ext. intros cat b1. now rewrite same_names.
Qed.
Lemma same_store_columns l : forall b, store_columns d1 l b = store_columns d2 l b.
Proof. induction l as [|[n v] l IH]; intros b; [reflexivity|]. cbn [store_columns]. rewrite same_store_looped. destruct (store_looped d2 n v false b) as [b1 [w|[[]| | | | | |]]]; auto. Qed.
Lemma same_store_cat v cat b : store_cat d1 v cat b = store_cat d2 v cat b.
Proof.
  unfold store_cat. destruct v; try reflexivity. rewrite same_key_names, same_names_in_cat. apply bind_ext. intros keys b1. apply bind_ext. intros dbl b2. apply bind_ext. intros [] b3; [|reflexivity].
  apply bind_ext2; [apply same_store_columns|reflexivity].
Qed.
Lemma same_store_result key cat v lp df b : store_result d1 key cat v lp df b = store_result d2 key cat v lp df b.
Proof.
  unfold store_result. destruct (same_def_of key) as [(e & -> & ->)|(t1 & t2 & -> & -> & T)]; [reflexivity|]. unfold bind at 1 3, lift.
  unfold is_item_def. rewrite T by reflexivity. destruct (match tget a_scope t2 with Some _ => _ | None => true end).
  - destruct lp; [apply same_store_looped|reflexivity].
  - unfold bind. rewrite same_store_cat. reflexivity.
Qed.
Lemma leq_attempts D1 D2 st k second : (forall a s x, leq (D1 a s x) (D2 a s x)) -> (second (Err XFuel) = err XFuel) -> leq (attempts D1 st k second) (attempts D2 st k second).
Proof.
  intros H S b. unfold attempts. destruct (H false st k b) as [E| ->].
  - left. destruct (D1 false st k b) as [b1 [a|x]]; cbn in E; [discriminate|]. injection E as ->. reflexivity.
  - destruct (D2 false st k b) as [b1 [a|[]]]; auto. destruct (H true st k b1) as [E| ->]; [|now right].
    left. destruct (D1 true st k b1) as [b2 r]; cbn in E. subst r. now rewrite S.
Qed.
Lemma leq_getitem cache D1 D2 prov k : (forall a s x, leq (D1 a s x) (D2 a s x)) -> leq (getitem d1 cache D1 prov k) (getitem d2 cache D2 prov k).
Proof.
  intros H. unfold getitem. destruct (str_eqb k (u "saves")); [apply leq_refl|]. intros b. destruct (get_full k b) as [[raw isv]|[]]; auto.
  - rewrite same_mem. destruct (negb _); auto. destruct isv; auto. rewrite same_change. destruct (prov && negb (unknown raw)); auto. destruct (prov && to_calculate raw); auto.
    apply leq_bind_same. intros _. now apply leq_attempts.
  - now apply leq_attempts.
Qed.
Lemma leq_run ask1 ask2 p : (forall k, leq (ask1 k) (ask2 k)) -> leq (run d1 ask1 p) (run d2 ask2 p).
Proof.
  intros H. induction p as [v|e|n next IH|n next IH|n next IH]; cbn [run]; try apply leq_refl.
  - apply leq_bind; auto.
  - intros b. destruct (has_key n b); [|apply IH]. destruct (H n b) as [E| ->].
    + left. destruct (ask1 n b) as [b1 [a|x]]; cbn in E; [discriminate|]. injection E as ->. reflexivity.
    + destruct (ask2 n b) as [b1 [a|[[]| | | | | |]]]; auto; apply IH.
  - intros b. unfold bind, look. rewrite same_has. apply IH.
Qed.
Lemma leq_methods ask1 ask2 l : (forall k, leq (ask1 k) (ask2 k)) -> leq (methods d1 ask1 l) (methods d2 ask2 l).
Proof.
  intros H. induction l as [|p l IH]; [apply leq_refl|]. cbn [methods]. intros b. destruct (leq_run _ _ p H b) as [E| ->].
  - left. destruct (run d1 ask1 p b) as [b1 [a|x]]; cbn in E; [discriminate|]. injection E as ->. reflexivity.
  - destruct (run d2 ask2 p b) as [b1 [[]|[]]]; auto; apply IH.
Qed.
Lemma leq_resolve ask1 ask2 k : (forall k, leq (ask1 k) (ask2 k)) -> leq (resolve d1 ask1 k) (resolve d2 ask2 k).
Proof.
  intros H b. unfold resolve. rewrite same_own, same_alias.
  assert (forall k0 k' b, snd (under d1 ask1 k0 k' b) = Err XFuel \/ under d1 ask1 k0 k' b = under d2 ask2 k0 k' b) as G.
  { intros k0 k'. apply leq_bind; auto. intros v. rewrite same_change. apply leq_refl. }
  destruct (filter _ (own_aliases d2 k)) as [|x l]; [|apply G].
  destruct (filter _ (alias_table d2)) as [|[k' v] [|]]; auto. destruct (has_key k' b); [apply G|]. destruct (filter _ (names_in v)); auto.
Qed.
Lemma leq_adjust ask1 ask2 cat p v df : (forall k, leq (ask1 k) (ask2 k)) -> leq (adjust d1 ask1 cat p v df) (adjust d2 ask2 cat p v df).
Proof.
  intros H b. unfold adjust. destruct (same_def_of cat) as [(e & -> & ->)|(t1 & t2 & -> & -> & T)]; auto. change (bind (lift (Ret ?t)) ?f b) with (f t b).
  unfold is_loop. rewrite T by reflexivity. destruct (veq_text _ _); auto. destruct p; auto. destruct df; auto. apply leq_bind; auto. intros. apply leq_refl.
Qed.
Lemma same_attr a t1 t2 : (forall att, default_attr (lower att) = false -> tget att t1 = tget att t2) -> default_attr (lower a) = false -> attr t1 a = attr t2 a.
Proof. intros T D. unfold attr. now rewrite T. Qed.
Lemma maps_ext {X Y} (f g : X -> outcome Y) l : (forall x, f x = g x) -> maps f l = maps g l.
Proof. intros H. induction l as [|x l IH]; [reflexivity|]. cbn [maps]. now rewrite H, IH. Qed.
Lemma same_object_ids l : object_ids (dd_defs d1) l = object_ids (dd_defs d2) l.
Proof.
  induction l as [|n l IH]; [reflexivity|]. cbn [object_ids]. destruct (same_defs n) as [[-> ->]|(t1 & t2 & -> & -> & T)]; [reflexivity|]. rewrite T by reflexivity. now rewrite IH.
Qed.
Lemma same_objects cat : object_names_in_cat (dd_defs d1) cat = object_names_in_cat (dd_defs d2) cat.
Proof. unfold object_names_in_cat. rewrite same_immediate. destruct (immediate_children _ cat); [|reflexivity]. apply same_object_ids. Qed.
Lemma same_projected from to skip : projected d1 from to skip = projected d2 from to skip.
Proof.
  unfold projected. rewrite !same_objects. destruct (obind (object_names_in_cat _ from) _); [|reflexivity]. cbn [obind]. destruct (obind (object_names_in_cat _ to) _); [|reflexivity]. cbn [obind]. now rewrite (a_set _ _ A).
Qed.
Lemma same_key_id c : obind (def_of d1 c) (fun ct => name_of_attr ct key_id) = obind (def_of d2 c) (fun ct => name_of_attr ct key_id).
Proof. destruct (same_def_of c) as [(e & -> & ->)|(t1 & t2 & -> & -> & T)]; [reflexivity|]. cbn [obind]. unfold name_of_attr. now rewrite (same_attr key_id t1 t2 T) by reflexivity. Qed.
Lemma leq_mapa {X Y} (f g : X -> act Y) l : (forall x, leq (f x) (g x)) -> leq (mapa f l) (mapa g l).
Proof. intros H. induction l as [|x l IH]; [apply leq_refl|]. cbn [mapa]. apply leq_bind; [apply H|]. intros y. apply leq_bind; [exact IH|]. intros. apply leq_refl. Qed.
Lemma leq_caught (m1 m2 : act value) (X : Type) (f : value -> X) (dflt : X) : leq m1 m2 ->
  leq (fun b => match m1 b with (b1, Ok v) => (b1, Ok (f v)) | (b1, Err XDerivation) => (b1, Ok dflt) | (b1, Err x) => (b1, Err x) end)
      (fun b => match m2 b with (b1, Ok v) => (b1, Ok (f v)) | (b1, Err XDerivation) => (b1, Ok dflt) | (b1, Err x) => (b1, Err x) end).
Proof.
  intros H b. destruct (H b) as [E| ->]; [|now right]. left. destruct (m1 b) as [b1 [v|x]]; [discriminate E|]. cbn in E. injection E as ->. reflexivity.
Qed.
Lemma leq_copy_rows ask1 ask2 from to sk kv names : (forall k, leq (ask1 k) (ask2 k)) -> forall last acc,
  leq (copy_rows d1 ask1 from to sk kv names last acc) (copy_rows d2 ask2 from to sk kv names last acc).
Proof.
  intros H. induction names as [|n r IH]; intros last acc; [apply leq_refl|]. cbn [copy_rows]. rewrite !(a_object _ _ A). apply leq_bind_same. intros ff. apply leq_bind_same. intros ft.
  apply leq_bind; [apply H|]. intros keys. apply leq_bind_same. intros pos. apply leq_bind; [apply (leq_caught _ _ _ Some last), H|]. intros data. apply leq_bind_same. intros col. apply IH.
Qed.
Lemma leq_copy_all ask1 ask2 from to names : (forall k, leq (ask1 k) (ask2 k)) -> forall acc, leq (copy_all d1 ask1 from to names acc) (copy_all d2 ask2 from to names acc).
Proof.
  intros H. induction names as [|n r IH]; intros acc; [apply leq_refl|]. cbn [copy_all]. rewrite !(a_object _ _ A). apply leq_bind_same. intros ff. apply leq_bind_same. intros ft.
  apply leq_bind; [apply (leq_caught _ _ _ (fun v => dset str_eqb ft v acc) acc), H|]. intros data. apply IH.
Qed.
Lemma leq_duplicate ask1 ask2 from to kv skip : (forall k, leq (ask1 k) (ask2 k)) -> leq (duplicate d1 ask1 from to kv skip) (duplicate d2 ask2 from to kv skip).
Proof.
  intros H. unfold duplicate. rewrite same_projected, same_key_id. apply leq_bind_same. intros names. apply leq_bind_same. intros sk. destruct kv; [now apply leq_copy_rows|now apply leq_copy_all].
Qed.
Section Tables.
Variables t1 t2 : table.
Hypothesis T : forall att, default_attr (lower att) = false -> tget att t1 = tget att t2.
Lemma same_names_of a : default_attr (lower a) = false -> names_of_attr t1 a = names_of_attr t2 a.
Proof. intros E. unfold names_of_attr. now rewrite (same_attr a t1 t2 T E). Qed.
Lemma leq_sides ask1 ask2 pb : (forall k, leq (ask1 k) (ask2 k)) -> leq (sides d1 ask1 t1 pb) (sides d2 ask2 t2 pb).
Proof.
  intros H. unfold sides. rewrite (same_names_of c_components eq_refl), !T by reflexivity. apply leq_bind_same. intros ms. apply leq_bind; [now apply leq_mapa|]. intros mv.
  rewrite (maps_ext (category_of d1) (category_of d2)) by apply same_category. apply leq_bind_same. intros cats. rewrite (maps_ext _ _ cats same_key_id). apply leq_bind_same. intros keys.
  apply leq_bind. { apply leq_mapa. intros k. apply leq_bind; [apply H|]. intros. apply leq_refl. } intros cv. destruct pb; [apply leq_refl|].
  destruct (tget c_int t2) as [f|]; [|apply leq_refl]. destruct (iter f) as [l|]; [|apply leq_refl]. cbn [obind]. rewrite (maps_ext (dd_int d1) (dd_int d2)) by apply (a_int _ _ A). apply leq_refl.
Qed.
Lemma leq_columns ask1 ask2 cat pb cats ids : (forall k, leq (ask1 k) (ask2 k)) -> leq (columns d1 ask1 cat t1 pb cats ids) (columns d2 ask2 cat t2 pb cats ids).
Proof.
  intros H. unfold columns. rewrite (same_names_of c_new_ids eq_refl). apply leq_bind_same. intros newids. rewrite (maps_ext _ _ newids (a_object _ _ A cat)). apply leq_bind_same. intros full.
  apply leq_bind_same. intros f0. apply leq_bind_same. intros r0. apply leq_bind_same. intros cat0. apply leq_bind_same. intros k0. apply leq_bind; [now apply leq_duplicate|]. intros e0.
  destruct pb; [|apply leq_refl]. apply leq_bind_same. intros cat1. apply leq_bind_same. intros k1. apply leq_bind; [now apply leq_duplicate|]. intros e1. apply leq_refl.
Qed.
Lemma leq_extend k m1 m2 r : leq m1 m2 -> leq (extend k m1 r) (extend k m2 r).
Proof. intros H. unfold extend. apply leq_bind_same. intros l. apply leq_bind; [exact H|]. intros. apply leq_refl. Qed.
Lemma leq_push_pair ask1 ask2 target tk sc cc si ni first r : (forall k, leq (ask1 k) (ask2 k)) -> leq (push_pair d1 ask1 target tk sc t1 cc si ni first r) (push_pair d2 ask2 target tk sc t2 cc si ni first r).
Proof.
  intros H. unfold push_pair. rewrite !T by reflexivity. apply leq_bind_same. intros pos. apply leq_bind_same. intros old. apply leq_bind; [now apply leq_extend|]. intros r1. apply leq_bind_same. intros _.
  apply leq_bind; [now apply leq_duplicate|]. intros. apply leq_refl.
Qed.
Lemma leq_push_bonus ask1 ask2 s0 comps r : (forall k, leq (ask1 k) (ask2 k)) -> leq (push_bonus d1 ask1 s0 t1 comps r) (push_bonus d2 ask2 s0 t2 comps r).
Proof.
  intros H. unfold push_bonus. rewrite (same_attr c_type t1 t2 T eq_refl), !T by reflexivity. destruct (veq_text _ _); [|apply leq_refl]. apply leq_bind_same. intros f. apply leq_bind_same. intros fv.
  destruct fv as [|x [|]]; try apply leq_refl. apply leq_bind_same. intros name. rewrite (a_int _ _ A). apply leq_bind_same. intros y. apply leq_bind; [apply H|]. intros w. apply leq_refl.
Qed.
Lemma leq_push_filter ask1 ask2 target tk sc comps si ni r : (forall k, leq (ask1 k) (ask2 k)) -> leq (push_filter d1 ask1 target tk sc t1 comps si ni r) (push_filter d2 ask2 target tk sc t2 comps si ni r).
Proof.
  intros H. unfold push_filter. apply leq_bind; [now apply leq_duplicate|]. intros extra. apply leq_bind_same. intros []; [|apply leq_refl]. apply leq_bind_same. intros s0. apply leq_bind; [now apply leq_extend|]. intros r1.
  apply leq_bind_same. intros r2. now apply leq_push_bonus.
Qed.
End Tables.
Lemma leq_construct ask1 ask2 cat : (forall k, leq (ask1 k) (ask2 k)) -> leq (construct d1 ask1 cat) (construct d2 ask2 cat).
Proof.
  intros H b. unfold construct. destruct (same_def_of cat) as [(e & -> & ->)|(t1 & t2 & -> & -> & T)]; auto. change (bind (lift (Ret t1)) ?f b) with (f t1 b). change (bind (lift (Ret t2)) ?f b) with (f t2 b). cbv beta zeta. rewrite !T by reflexivity.
  destruct (_ || _); [|now right]. revert b. apply leq_bind; [now apply leq_sides|]. intros s. apply leq_bind_same. intros ids. destruct ids as [|i ids]; [apply leq_refl|].
  apply leq_bind; [now apply leq_columns|]. intros res b. right. apply bind_ext2; [apply same_store_cat|reflexivity].
Qed.
Lemma leq_push_sources ask1 ask2 target tk l : (forall k, leq (ask1 k) (ask2 k)) -> forall first r, leq (push_sources d1 ask1 target tk l first r) (push_sources d2 ask2 target tk l first r).
Proof.
  intros H. induction l as [|sc l IH]; intros first r b; [now right|]. cbn [push_sources]. destruct (same_def_of sc) as [(e & -> & ->)|(t1 & t2 & -> & -> & T)]; auto. change (bind (lift (Ret t1)) ?f b) with (f t1 b). change (bind (lift (Ret t2)) ?f b) with (f t2 b). cbv beta zeta.
  rewrite (same_names_of t1 t2 T c_components eq_refl), (same_names_of t1 t2 T c_new_ids eq_refl). revert b. apply leq_bind_same. intros comps. rewrite (maps_ext _ _ comps same_category). apply leq_bind_same. intros cc.
  apply leq_bind_same. intros ni. rewrite (maps_ext _ _ ni (a_object _ _ A sc)). apply leq_bind_same. intros si. apply leq_bind; [|intros; apply IH].
  destruct (Nat.eqb _ 2); [now apply leq_push_pair|now apply leq_push_filter].
Qed.
Lemma leq_push ask1 ask2 target l : (forall k, leq (ask1 k) (ask2 k)) -> leq (push d1 ask1 target l) (push d2 ask2 target l).
Proof.
  intros H. unfold push. rewrite same_key_id. apply leq_bind_same. intros tk. apply leq_bind; [now apply leq_push_sources|]. intros res. apply leq_bind_same. intros _ b. right. apply bind_ext2; [apply same_store_cat|reflexivity].
Qed.
Lemma leq_attempt m1 m2 : leq m1 m2 -> leq (attempt m1) (attempt m2).
Proof. intros H b. unfold attempt. destruct (H b) as [E| ->]; [|now right]. left. destruct (m1 b) as [b1 [a|x]]; [discriminate E|]. cbn in E. injection E as ->. reflexivity. Qed.
Lemma same_pulled cat : pulled_to d1 cat = pulled_to d2 cat.
Proof.
  unfold pulled_to. f_equal. assert (forall l1 l2, Forall2 same_def l1 l2 -> component_cats d1 l1 = component_cats d2 l2) as G; [|apply G; now destruct A].
  intros l1 l2 F. induction F as [|[k1 t1] [k2 t2] l1 l2 [E T] _ IH]; [reflexivity|]. cbn [fst snd] in E, T. subst k2. cbn [component_cats]. rewrite T by reflexivity. destruct (tget c_components t2) as [v|]; [|exact IH].
  destruct (obind (iter v) (maps as_name)) as [ns|]; [|reflexivity]. cbn [obind]. rewrite (maps_ext _ _ ns same_category), IH. reflexivity.
Qed.
Lemma leq_populate ask1 ask2 c1 c2 cat key : (forall k, leq (ask1 k) (ask2 k)) -> (forall k, leq (c1 k) (c2 k)) -> leq (populate d1 ask1 c1 cat key) (populate d2 ask2 c2 cat key).
Proof.
  intros HA H. unfold populate. rewrite same_pulled. apply leq_bind_same. intros sources b. destruct (same_def_of cat) as [(e & -> & ->)|(t1 & t2 & -> & -> & T)]; auto. change (bind (lift (Ret t1)) ?f b) with (f t1 b). change (bind (lift (Ret t2)) ?f b) with (f t2 b). cbv beta zeta.
  rewrite T by reflexivity. revert b. apply leq_bind. { destruct (tget c_type t2); [now apply leq_attempt, leq_construct|apply leq_refl]. } intros r1. apply leq_bind.
  { destruct sources; [apply leq_refl|]. destruct r1; [now apply leq_attempt, leq_push|apply leq_refl]. } intros r2.
  rewrite (a_methods _ _ A). destruct (dd_methods d2 (lower cat)); [apply leq_refl|]. destruct (dmem str_eqb key r2); [apply leq_refl|]. apply leq_bind; auto. intros. apply leq_refl.
Qed.
Lemma leq_default ask1 ask2 key t : d1 = d2 -> (forall k, leq (ask1 k) (ask2 k)) -> leq (default d1 ask1 key t) (default d2 ask2 key t).
Proof.
  intros E H. unfold default. rewrite <- E. set (dv := match tget (u "_enumeration.default") t with Some v => v | None => VStr [] end). set (di := match tget (u "_enumeration.def_index_id") t with Some v => v | None => VStr [] end).
  destruct (truthy dv); [apply leq_refl|]. destruct (truthy di); [|apply leq_refl]. apply leq_bind_same. intros idx. apply leq_bind_same. intros ivs. apply leq_bind; auto. intros. apply leq_refl.
Qed.
Lemma leq_body ask1 ask2 c1 c2 prov st allow k : allow = false \/ d1 = d2 -> (forall p k, leq (ask1 p k) (ask2 p k)) -> (forall k, leq (c1 k) (c2 k)) ->
  leq (body d1 ask1 c1 prov st allow k) (body d2 ask2 c2 prov st allow k).
Proof.
  intros AL H C. unfold body. apply leq_bind; [now apply leq_resolve|]. intros [v|key]; [apply leq_refl|]. rewrite same_category. apply leq_bind_same. intros cat. rewrite same_names. cbv zeta.
  assert (forall f1 f2 : list str -> act value, (forall l, leq (f1 l) (f2 l)) ->
     leq (bind (look (fun b => filter (fun a => has_or_alias d1 a b) (cat_names d2 cat))) f1) (bind (look (fun b => filter (fun a => has_or_alias d2 a b) (cat_names d2 cat))) f2)) as G.
  { intros f1 f2 F b. unfold bind, look. rewrite (filter_ext (fun a => has_or_alias d1 a b) (fun a => has_or_alias d2 a b)) by (intros; apply same_has). apply F. }
  apply G. intros p1. apply leq_bind. { destruct p1; [now apply leq_populate; auto|apply leq_refl]. }
  intros [v|]; [apply leq_refl|]. apply G. intros p2. rewrite (a_methods _ _ A). apply leq_bind; [now apply leq_methods|]. intros v. apply leq_bind.
  { destruct v; try apply leq_refl. destruct AL as [-> | E]; [apply leq_refl|]. destruct allow; [|apply leq_refl]. apply leq_bind; [rewrite <- E; apply leq_refl|]. intros t. now apply leq_default. }
  intros [w df]. cbn [fst snd]. assert (leq (bind (adjust d1 (ask1 prov) cat p2 w df) (fun wl => if negb (empty_list (fst wl)) && st then store_result d1 key cat (fst wl) (snd wl) df else ret (fst wl)))
    (bind (adjust d2 (ask2 prov) cat p2 w df) (fun wl => if negb (empty_list (fst wl)) && st then store_result d2 key cat (fst wl) (snd wl) df else ret (fst wl)))) as K.
  { apply leq_bind; [now apply leq_adjust|]. intros wl. destruct (negb _ && st); [|apply leq_refl]. intros b. right. apply same_store_result. }
  destruct w; try exact K. apply leq_refl.
Qed.
End Agree.

Lemma leq_derive d1 d2 : agree d1 d2 -> forall n m cache stack stored prov allow st k, n <= m ->
  (match stack with [] => allow | _ => stored end = false \/ d1 = d2) ->
  leq (derive n d1 cache stack stored prov allow st k) (derive m d2 cache stack stored prov allow st k).
Proof.
  intros A. induction n as [|n IH]; intros m cache stack stored prov allow st k L AL; [intros b; now left|]. destruct m as [|m]; [lia|]. cbn [derive].
  destruct (mem str_eqb k stack); [apply leq_refl|]. set (al := match stack with [] => allow | _ => stored end) in *. cbv zeta.
  assert (match stack ++ [k] with [] => al | _ => al end = al) as Z by (destruct (stack ++ [k]); reflexivity).
  assert (forall p a s x, leq (derive n d1 cache (stack ++ [k]) al p a s x) (derive m d2 cache (stack ++ [k]) al p a s x)) as R.
  { intros p a s x. apply IH; [lia|]. destruct stack; exact AL. }
  intros b. destruct (leq_body d1 d2 A (fun p => getitem d1 cache (derive n d1 cache (stack ++ [k]) al p) p) (fun p => getitem d2 cache (derive m d2 cache (stack ++ [k]) al p) p)
     (fun c => derive n d1 cache (stack ++ [k]) al prov true true c) (fun c => derive m d2 cache (stack ++ [k]) al prov true true c) prov st al k AL) with (b := b) as [E|E].
  - intros p x. apply leq_getitem; auto.
  - intros x. apply R.
  - left. match goal with |- snd (match ?m with _ => _ end) = _ => destruct m as [b1 [a|x]] end; [discriminate E|]. cbn [snd] in E. injection E as ->. reflexivity.
  - right. change (fun prov0 k0 => getitem d1 cache (derive n d1 cache (stack ++ [k]) al prov0) prov0 k0) with (fun prov0 => getitem d1 cache (derive n d1 cache (stack ++ [k]) al prov0) prov0) in *.
    match goal with |- (match ?X with _ => _ end) = (match ?Y with _ => _ end) => assert (X = Y) as E' by exact E; rewrite E' end. reflexivity.
Qed.
Lemma read_more n m d cache prov k : n <= m -> leq (read n d cache prov k) (read m d cache prov k).
Proof. intros L. unfold read. apply leq_getitem; [apply agree_refl|]. intros a s x. apply leq_derive; auto using agree_refl. Qed.
Lemma derive_no_defaults n d cache stack stored prov allow st k b : match stack with [] => allow | _ => stored end = false ->
  derive n (no_defaults d) cache stack stored prov allow st k b = derive n d cache stack stored prov allow st k b
  \/ snd (derive n d cache stack stored prov allow st k b) = Err XFuel.
Proof.
  intros E. pose proof (agree_no_defaults d) as A. destruct (leq_derive _ _ A n n cache stack stored prov allow st k (le_n _) (or_introl E) b) as [F|F]; [|now left].
  destruct (leq_derive _ _ (agree_sym _ _ A) n n cache stack stored prov allow st k (le_n _) (or_introl E) b) as [G|G]; [now right|]. left. now symmetry.
Qed.
