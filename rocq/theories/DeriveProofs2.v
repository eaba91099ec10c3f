(** Derivations end. *)
From Coq Require Import String Ascii List NArith ZArith Bool PeanoNat Lia.
From Verif Require Import PyBase PyFacts StarBlockModel LoopModel ValidateModel TreeModel DeriveModel DeriveSpec.
Import ListNotations.
Open Scope nat_scope.

Definition ends {A} (m : act A) : Prop := forall b, snd (m b) <> Err XFuel.
Lemma ends_ret {A} (a : A) : ends (ret a).
Proof. intros b. discriminate. Qed.
Lemma ends_err {A} x : x <> XFuel -> ends (err (A:=A) x).
Proof. intros H b E. cbn in E. congruence. Qed.
Lemma ends_lift {A} (o : outcome A) : ends (lift o).
Proof. intros b. unfold lift. destruct o; discriminate. Qed.
Lemma ends_look {A} (f : block -> A) : ends (look f).
Proof. intros b. discriminate. Qed.
Lemma ends_change f : ends (change f).
Proof. intros b. unfold change. destruct (f b) as [b1 []]; discriminate. Qed.
Lemma ends_bind {A B} (m : act A) (f : A -> act B) : ends m -> (forall a, ends (f a)) -> ends (bind m f).
Proof. intros H F b. unfold bind. specialize (H b). destruct (m b) as [b1 [a|x]]; [apply F|]. cbn in *. congruence. Qed.
Local Hint Resolve ends_ret ends_lift ends_look ends_change ends_bind : ends.
Local Ltac ends := repeat first [apply ends_bind; [|intros] | apply ends_ret | apply ends_lift | apply ends_look | apply ends_change | (apply ends_err; discriminate)].

Lemma ends_store_looped d key v df : ends (store_looped d key v df).
Proof. unfold store_looped. ends. destruct df; ends. Qed.
Lemma ends_store_columns d l : ends (store_columns d l).
Proof.
  induction l as [|[n v] l IH]; [apply ends_ret|]. intros b. cbn [store_columns]. pose proof (ends_store_looped d n v false b) as H.
  destruct (store_looped d n v false b) as [b1 [w|[[]| | | | | |]]]; auto; try discriminate; apply IH.
Qed.
Lemma ends_keys_first l : ends (keys_first l).
Proof. induction l; cbn [keys_first]; ends. exact IHl. Qed.
Lemma ends_store_cat d v cat : ends (store_cat d v cat).
Proof.
  unfold store_cat. destruct v; try (apply ends_err; discriminate). ends.
  - match goal with |- ends (if ?a then _ else _) => destruct a end; ends. destruct (same_set _ _); ends.
  - match goal with |- ends (if ?a then _ else _) => destruct a end; ends. apply ends_store_columns. apply ends_keys_first.
Qed.
Lemma ends_store_result d key cat v lp df : ends (store_result d key cat v lp df).
Proof.
  unfold store_result. ends. destruct (is_item_def a).
  - destruct lp; [apply ends_store_looped|unfold store_unlooped; ends].
  - ends. apply ends_store_cat.
Qed.
Lemma ends_attempts D st k second : (forall a s, ends (D a s k)) -> (forall r, r <> Err XFuel -> ends (second r)) -> ends (attempts D st k second).
Proof.
  intros H S b. unfold attempts. pose proof (H false st b) as E. destruct (D false st k b) as [b1 [a|[]]]; auto; try discriminate. pose proof (H true st b1) as E2. destruct (D true st k b1) as [b2 r]. now apply S.
Qed.
Lemma ends_getitem d cache D prov k : (forall a s, ends (D a s k)) -> ends (getitem d cache D prov k).
Proof.
  intros H. unfold getitem. destruct (str_eqb k (u "saves")); [ends|]. intros b. destruct (get_full k b) as [[raw isv]|[]]; try discriminate.
  - destruct (negb _); [discriminate|]. destruct isv; [discriminate|]. destruct (prov && negb (unknown raw)); [apply ends_lift|]. destruct (prov && to_calculate raw); [|discriminate].
    apply ends_bind; [apply ends_change|]. intros _. apply ends_attempts; auto. intros [v|[]] N; ends; try (apply ends_err; congruence).
  - apply ends_attempts; auto. intros [v|[]] N; ends; try (apply ends_err; congruence).
Qed.

Record closed (d : ddict) (K : list str) : Prop := mkClosed {
  k_defs : forall k t, In (k, t) (dd_defs d) -> In k K;
  k_alias : forall k v n, In (k, v) (alias_table d) -> In n (names_in v) -> In n K;
  k_cat : forall key c, category_of d key = Ret c -> In c K;
  k_index : forall key t s, def_of d key = Ret t -> tget (u "_enumeration.def_index_id") t = Some (VStr s) -> In s K;
  k_meth : methods_ask d K;
  k_texts : forall k t a v s, In (k, t) (dd_defs d) -> tget a t = Some v -> In s (texts_of v) -> In s K;
  k_object : objects_in d K
}.
Lemma def_of_In d key t : def_of d key = Ret t -> In (lower key, t) (dd_defs d).
Proof. unfold def_of. destruct (dget _ _ _) eqn:E; [|discriminate]. intros [= ->]. now apply (dget_In str_eqb str_eqb_spec) in E. Qed.
Lemma maps_In {X Y} (f : X -> outcome Y) l ys y : maps f l = Ret ys -> In y ys -> exists x, In x l /\ f x = Ret y.
Proof.
  revert ys. induction l as [|x l IH]; intros ys; cbn [maps].
  - intros [= <-] [].
  - destruct (f x) as [z|] eqn:E; [|discriminate]. cbn [obind]. destruct (maps f l) as [zs|] eqn:F; [|discriminate]. cbn [obind]. intros [= <-] [<-|I]; [exists x; split; [now left|exact E]|].
    destruct (IH zs eq_refl I) as (w & J & K). exists w. split; [now right|exact K].
Qed.
Lemma in_range_In {X} (l : list X) i x : in_range l i = Ret x -> In x l.
Proof. unfold in_range. destruct (nth_error l i) eqn:E; [|discriminate]. intros [= <-]. now apply nth_error_In in E. Qed.
Section Closed.
Variables (d : ddict) (K : list str).
Hypothesis C : closed d K.
Lemma ends_run ask p : (forall k, In k K -> ends (ask k)) -> asks K p -> ends (run d ask p).
Proof.
  intros H. induction p as [v|e|n next IH|n next IH|n next IH]; cbn [run asks]; intros P.
  - apply ends_ret.
  - apply ends_err. discriminate.
  - destruct P as [I P]. apply ends_bind; auto.
  - destruct P as [I P]. intros b. destruct (has_key n b); [|now apply IH]. pose proof (H n I b) as E. destruct (ask n b) as [b1 [a|[[]| | | | | |]]]; auto; try discriminate; now apply IH.
  - apply ends_bind; [apply ends_look|]. auto.
Qed.
Lemma ends_methods ask l : (forall k, In k K -> ends (ask k)) -> (forall p, In p l -> asks K p) -> ends (methods d ask l).
Proof.
  intros H. induction l as [|p l IH]; intros P; [apply ends_ret|]. intros b. cbn [methods]. pose proof (ends_run ask p H (P p (or_introl eq_refl)) b) as E.
  assert (ends (methods d ask l)) as G by (apply IH; intros; apply P; now right).
  destruct (run d ask p b) as [b1 [[]|[]]]; auto; try discriminate; apply G.
Qed.
Lemma alias_In k t : In (k, t) (alias_table d) -> In k K.
Proof.
  unfold alias_table. rewrite in_flat_map. intros ([k' t'] & I & J). cbn [fst snd] in J. destruct (tget _ t'); [|contradiction]. destruct J as [J|[]]. injection J as <- _. now apply (k_defs _ _ C) in I.
Qed.
Lemma own_In key n : In n (own_aliases d key) -> In n K.
Proof. unfold own_aliases. destruct (dget _ _ _) eqn:E; [|intros []]. apply (dget_In str_eqb str_eqb_spec) in E. now apply (k_alias _ _ C _ _ _ E). Qed.
Lemma ends_under ask k key : ends (ask k) -> ends (under d ask k key).
Proof. intros H. unfold under. ends. exact H. Qed.
Lemma ends_resolve ask key : (forall k, In k K -> ends (ask k)) -> ends (resolve d ask key).
Proof.
  intros H b. unfold resolve.
  destruct (filter _ (own_aliases d key)) as [|k l] eqn:E.
  - destruct (filter _ (alias_table d)) as [|[k' v] [|]] eqn:F; try discriminate.
    assert (In (k', v) (alias_table d)) as I by (eapply proj1, filter_In; rewrite F; now left).
    destruct (has_key k' b); [apply ends_under, H, (alias_In _ _ I)|].
    destruct (filter _ (names_in v)) as [|k l] eqn:G; [discriminate|]. apply ends_under, H. apply (k_alias _ _ C _ _ _ I). eapply proj1, filter_In. rewrite G. now left.
  - apply ends_under, H. apply (own_In key). eapply proj1, filter_In. rewrite E. now left.
Qed.
Lemma cat_names_In cat n : In n (cat_names d cat) -> In n K.
Proof. unfold cat_names. rewrite in_map_iff. intros ([k t] & <- & I). apply filter_In in I as [I _]. now apply (k_defs _ _ C) in I. Qed.
Lemma ends_lift_bind {A B} (a : A) (f : A -> act B) : ends (f a) -> ends (bind (lift (Ret a)) f).
Proof. intros H b. apply H. Qed.
Lemma ends_raise_bind {A B} e (f : A -> act B) : ends (bind (lift (Raise e)) f).
Proof. intros b H. cbn in H. discriminate H. Qed.
Lemma ends_default ask key t : def_of d key = Ret t -> (forall k, In k K -> ends (ask k)) -> ends (default d ask key t).
Proof.
  intros E H. unfold default. destruct (truthy _); [ends|]. destruct (tget (u "_enumeration.def_index_id") t) as [di|] eqn:D; [|ends].
  destruct (truthy di); [|ends]. destruct di as [s| | | | |]; try apply ends_raise_bind.
  apply ends_lift_bind. assert (In s K) as I by (now apply (k_index _ _ C key t)).
  apply ends_bind; [apply ends_lift|]. intros ivs. apply ends_bind; [now apply H|]. intros v. apply ends_bind; [apply ends_lift|]. intros tc.
  destruct (existsb _ _); ends. destruct v; ends.
Qed.
Lemma ends_adjust ask cat p v df : (forall k, In k p -> ends (ask k)) -> ends (adjust d ask cat p v df).
Proof. intros H. unfold adjust. ends. destruct (is_loop a); ends. destruct p as [|n p]; ends. destruct df; ends. apply H. now left. Qed.
Lemma ends_given {A B} (o : outcome A) (f : A -> act B) : (forall a, o = Ret a -> ends (f a)) -> ends (bind (lift o) f).
Proof. intros H. destruct o as [a|e]; [now apply ends_lift_bind, H|apply ends_raise_bind]. Qed.
Lemma iter_texts v l : iter v = Ret l -> forall s, In (VStr s) l -> In s (texts_of v).
Proof.
  intros E s I. destruct v as [x|x| |x|x|x]; try discriminate E; injection E as <-.
  - right. apply in_map_iff in I as (c & [= <-] & I). apply in_map_iff. now exists c.
  - apply in_flat_map. exists (VStr s). split; [exact I|now left].
  - apply in_flat_map. exists (VStr s). split; [exact I|now left].
  - apply in_map_iff in I as (c & [= <-] & I). apply in_map_iff. now exists c.
Qed.
Lemma names_of_In key t a l n : def_of d key = Ret t -> names_of_attr t a = Ret l -> In n l -> In n K.
Proof.
  intros D E I. unfold names_of_attr, attr in E. destruct (tget a t) as [v|] eqn:T; [|discriminate]. cbn [obind] in E. destruct (iter v) as [vs|] eqn:V; [|discriminate]. cbn [obind] in E.
  destruct (maps_In _ _ _ _ E I) as (x & J & X). destruct x as [s| | | | |]; try discriminate X. injection X as ->. apply (k_texts _ _ C _ _ a v n (def_of_In _ _ _ D) T). now apply (iter_texts v vs).
Qed.
Lemma name_of_In key t a n : def_of d key = Ret t -> name_of_attr t a = Ret n -> In n K.
Proof.
  intros D E. unfold name_of_attr, attr in E. destruct (tget a t) as [v|] eqn:T; [|discriminate]. destruct v as [s| | | | |]; try discriminate E. injection E as ->. apply (k_texts _ _ C _ _ a _ n (def_of_In _ _ _ D) T). now left.
Qed.
Lemma key_id_In c n : obind (def_of d c) (fun ct => name_of_attr ct key_id) = Ret n -> In n K.
Proof. destruct (def_of d c) as [t|] eqn:D; [|discriminate]. now apply name_of_In with (key := c). Qed.
Lemma ends_mapa {X Y} (f : X -> act Y) l : (forall x, In x l -> ends (f x)) -> ends (mapa f l).
Proof. induction l as [|x l IH]; intros H; [apply ends_ret|]. cbn [mapa]. apply ends_bind; [apply H; now left|]. intros y. apply ends_bind; [apply IH; intros; apply H; now right|]. intros. apply ends_ret. Qed.
Lemma ends_caught (m : act value) (X : Type) (f : value -> X) (dflt : X) : ends m ->
  ends (fun b => match m b with (b1, Ok v) => (b1, Ok (f v)) | (b1, Err XDerivation) => (b1, Ok dflt) | (b1, Err x) => (b1, Err x) end).
Proof. intros H b. specialize (H b). destruct (m b) as [b1 [v|[]]]; try discriminate. exact (fun E => H eq_refl). Qed.
Section Asking.
Variable ask : str -> act value.
Hypothesis H : forall k, In k K -> ends (ask k).
Lemma ends_copy_rows from to sk kv names : In sk K -> forall last acc, ends (copy_rows d ask from to sk kv names last acc).
Proof.
  intros S. induction names as [|n r IH]; intros last acc; [apply ends_ret|]. cbn [copy_rows]. apply ends_given. intros ff FF. apply ends_given. intros ft FT.
  apply ends_bind; [now apply H|]. intros keys. apply ends_bind; [apply ends_lift|]. intros pos. apply ends_bind; [apply (ends_caught _ _ Some last), H, (k_object _ _ C _ _ _ FF)|]. intros data.
  apply ends_bind; [destruct data; [apply ends_lift|destruct pos; [apply ends_ret|apply ends_err; discriminate]]|]. intros col. apply IH.
Qed.
Lemma ends_copy_all from to names : forall acc, ends (copy_all d ask from to names acc).
Proof.
  induction names as [|n r IH]; intros acc; [apply ends_ret|]. cbn [copy_all]. apply ends_given. intros ff FF. apply ends_given. intros ft FT.
  apply ends_bind; [apply (ends_caught _ _ (fun v => dset str_eqb ft v acc) acc), H, (k_object _ _ C _ _ _ FF)|]. intros data. apply IH.
Qed.
Lemma ends_duplicate from to kv skip : ends (duplicate d ask from to kv skip).
Proof. unfold duplicate. apply ends_given. intros names _. apply ends_given. intros sk S. apply key_id_In in S. destruct kv; [now apply ends_copy_rows|now apply ends_copy_all]. Qed.
Lemma ends_sides cat t pb : def_of d cat = Ret t -> ends (sides d ask t pb).
Proof.
  intros D. unfold sides. apply ends_given. intros ms M. apply ends_bind. { apply ends_mapa. intros x I. apply H. now apply (names_of_In cat t c_components ms). }
  intros mv. apply ends_given. intros cats _. apply ends_given. intros keys E. apply ends_bind.
  { apply ends_mapa. intros k I. apply ends_bind; [|intros; apply ends_lift]. apply H. destruct (maps_In _ _ _ _ E I) as (c & _ & F). now apply key_id_In in F. }
  intros cv. destruct pb; [apply ends_ret|]. ends.
Qed.
Lemma ends_columns cat t pb cats ids : ends (columns d ask cat t pb cats ids).
Proof.
  unfold columns. apply ends_bind; [apply ends_lift|]. intros ni. apply ends_bind; [apply ends_lift|]. intros full. apply ends_bind; [apply ends_lift|]. intros f0. apply ends_bind; [destruct pb; ends|]. intros r0.
  apply ends_bind; [apply ends_lift|]. intros cat0. apply ends_bind; [apply ends_lift|]. intros k0. apply ends_bind; [apply ends_duplicate|]. intros e0. destruct pb; [|apply ends_ret].
  apply ends_bind; [apply ends_lift|]. intros cat1. apply ends_bind; [apply ends_lift|]. intros k1. apply ends_bind; [apply ends_duplicate|]. intros. apply ends_ret.
Qed.
Lemma ends_construct cat : ends (construct d ask cat).
Proof.
  unfold construct. apply ends_given. intros t D. cbv zeta. destruct (_ || _); [|destruct (tget c_type t); ends].
  apply ends_bind; [now apply (ends_sides cat)|]. intros s. apply ends_bind; [apply ends_lift|]. intros ids. destruct ids; [apply ends_ret|].
  apply ends_bind; [apply ends_columns|]. intros r. apply ends_bind; [apply ends_store_cat|]. intros. apply ends_ret.
Qed.
Lemma ends_extend k m r : ends m -> ends (extend k m r).
Proof. intros M. unfold extend. apply ends_bind; [apply ends_lift|]. intros l. apply ends_bind; [exact M|]. intros. ends. Qed.
Lemma ends_extend_known new more : forall r, ends (extend_known new more r).
Proof. induction more as [|[k v] m IH]; intros r; [apply ends_ret|]. cbn [extend_known]. apply ends_bind; [|intros; apply IH]. destruct (dmem str_eqb k r); [apply ends_extend, ends_ret|apply ends_ret]. Qed.
Lemma ends_push_pair target tk sc t cc si ni first r : incl si K -> ends (push_pair d ask target tk sc t cc si ni first r).
Proof.
  intros I. unfold push_pair. apply ends_bind; [apply ends_lift|]. intros pos. apply ends_given. intros old O. apply in_range_In, I in O. apply ends_bind; [now apply ends_extend, H|]. intros r1.
  apply ends_bind; [apply ends_lift|]. intros _. apply ends_bind; [apply ends_duplicate|]. intros extra. destruct first; [apply ends_ret|apply ends_extend_known].
Qed.
Lemma ends_push_bonus s0 t comps r : In s0 K -> ends (push_bonus d ask s0 t comps r).
Proof.
  intros I. unfold push_bonus. destruct (veq_text _ _); [|apply ends_lift]. apply ends_bind; [apply ends_lift|]. intros f. apply ends_bind; [apply ends_lift|]. intros [|x [|]]; [apply ends_ret| |apply ends_ret].
  apply ends_bind; [apply ends_lift|]. intros name. apply ends_bind; [apply ends_lift|]. intros y. apply ends_bind; [now apply H|]. intros w. apply ends_bind; [apply ends_lift|]. intros n. cbv zeta.
  destruct (dmem _ _ _); [apply ends_extend, ends_ret|apply ends_ret].
Qed.
Lemma ends_push_filter target tk sc t comps si ni r : incl si K -> ends (push_filter d ask target tk sc t comps si ni r).
Proof.
  intros I. unfold push_filter. apply ends_bind; [apply ends_duplicate|]. intros extra. apply ends_bind; [destruct extra; ends|]. intros []; [|apply ends_ret].
  apply ends_given. intros s0 S. apply in_range_In, I in S. apply ends_bind; [now apply ends_extend, H|]. intros r1. apply ends_bind; [apply ends_extend_known|]. intros r2. now apply ends_push_bonus.
Qed.
Lemma ends_push_sources target tk l : forall first r, ends (push_sources d ask target tk l first r).
Proof.
  induction l as [|sc l IH]; intros first r; [apply ends_ret|]. cbn [push_sources]. apply ends_bind; [apply ends_lift|]. intros t. apply ends_bind; [apply ends_lift|]. intros comps. apply ends_bind; [apply ends_lift|]. intros cc.
  apply ends_bind; [apply ends_lift|]. intros ni. apply ends_given. intros si S.
  assert (incl si K) as I. { intros x J. destruct (maps_In _ _ _ _ S J) as (n & _ & E). now apply (k_object _ _ C) in E. }
  apply ends_bind; [|intros; apply IH]. destruct (Nat.eqb _ 2); [now apply ends_push_pair|now apply ends_push_filter].
Qed.
Lemma ends_push target l : ends (push d ask target l).
Proof.
  unfold push. apply ends_bind; [apply ends_lift|]. intros tk. apply ends_bind; [apply ends_push_sources|]. intros r. apply ends_bind.
  - unfold same_lengths. apply ends_bind; [apply ends_lift|]. intros [|n ls]; [apply ends_err; discriminate|]. destruct (forallb _ ls); [apply ends_ret|apply ends_err; discriminate].
  - intros _. apply ends_bind; [apply ends_store_cat|]. intros. apply ends_ret.
Qed.
End Asking.
Lemma ends_attempt m : ends m -> ends (attempt m).
Proof. intros H b. unfold attempt. specialize (H b). destruct (m b) as [b1 [a|[]]]; try discriminate. exact H. Qed.
Lemma ends_populate ask c cat key : (forall k, In k K -> ends (ask k)) -> ends (c cat) -> ends (populate d ask c cat key).
Proof.
  intros HA H. unfold populate. apply ends_bind; [apply ends_lift|]. intros sources. apply ends_bind; [apply ends_lift|]. intros t. apply ends_bind. { destruct (tget c_type t); [now apply ends_attempt, ends_construct|apply ends_ret]. }
  intros r1. apply ends_bind. { destruct sources; [apply ends_ret|]. destruct r1; [now apply ends_attempt, ends_push|apply ends_ret]. } intros r2.
  destruct (dd_methods d (lower cat)); [apply ends_ret|]. destruct (dmem str_eqb key r2); [apply ends_ret|]. apply ends_bind; [exact H|]. intros r. destruct r as [?|?| |x|x|]; try destruct x; ends.
Qed.
Lemma ends_body ask c prov st allow k : In k K -> (forall p k, In k K -> ends (ask p k)) -> (forall k, In k K -> ends (c k)) -> ends (body d ask c prov st allow k).
Proof.
  intros IK H HC. unfold body. apply ends_bind; [now apply ends_resolve; auto|]. intros [v|key]; [apply ends_ret|]. cbv zeta.
  destruct (category_of d key) as [cat|] eqn:EC; [|apply ends_raise_bind]. apply ends_lift_bind. assert (In cat K) as IC by (now apply (k_cat _ _ C key)).
  apply ends_bind; [apply ends_look|]. intros p1. apply ends_bind. { destruct p1; [apply ends_populate; auto|apply ends_ret]. }
  intros [v|]; [apply ends_ret|].
  assert (forall (f : list str -> act value), (forall l, incl l (cat_names d cat) -> ends (f l)) -> ends (bind (look (fun b => filter (fun a => has_or_alias d a b) (cat_names d cat))) f)) as G.
  { intros f F b. unfold bind, look. apply F. intros x I. now apply filter_In in I as [I _]. }
  apply G. intros p2 I2. apply ends_bind. { apply ends_methods; auto. intros p Ip. now apply (k_meth _ _ C) in Ip. }
  intros v. apply ends_bind. { destruct v; try apply ends_ret. destruct allow; [|apply ends_ret]. destruct (def_of d key) as [t|] eqn:ED; [|apply ends_raise_bind]. apply ends_lift_bind. now apply ends_default; auto. }
  intros [w df]. cbn [fst snd].
  assert (ends (bind (adjust d (ask prov) cat p2 w df) (fun wl => if negb (empty_list (fst wl)) && st then store_result d key cat (fst wl) (snd wl) df else ret (fst wl)))) as J.
  { apply ends_bind. - apply ends_adjust. intros n In. apply H. now apply (cat_names_In cat), I2. - intros wl. destruct (_ && st); [apply ends_store_result|apply ends_ret]. }
  destruct w; try exact J. apply ends_err. discriminate.
Qed.
Lemma ends_derive : forall n cache stack stored prov allow st k, NoDup stack -> incl stack K -> In k K -> length K < n + length stack ->
  ends (derive n d cache stack stored prov allow st k).
Proof.
  induction n as [|n IH]; intros cache stack stored prov allow st k ND IN IK L.
  { pose proof (NoDup_incl_length ND IN). lia. }
  cbn [derive]. destruct (mem str_eqb k stack) eqn:M; [apply ends_err; discriminate|]. cbv zeta. set (al := match stack with [] => allow | _ => stored end).
  assert (forall p a s x, In x K -> ends (derive n d cache (stack ++ [k]) al p a s x)) as R.
  { intros p a s x I. apply IH; auto.
    - apply NoDup_app_iff. split; [exact ND|]. split; [constructor; [intros []|constructor]|]. intros y J [<-|[]]. apply (mem_In str_eqb str_eqb_spec) in J. congruence.
    - intros y J. apply in_app_or in J as [J|[<-|[]]]; auto.
    - rewrite app_length. cbn [length]. lia. }
  intros b. pose proof (ends_body (fun p => getitem d cache (derive n d cache (stack ++ [k]) al p) p) (fun c => derive n d cache (stack ++ [k]) al prov true true c) prov st al k IK
    (fun p x I => ends_getitem d cache _ p x (fun a s => R p a s x I)) (fun x I => R prov true true x I) b) as E.
  match goal with |- snd (match ?m with _ => _ end) <> _ => change m with (body d (fun p => getitem d cache (derive n d cache (stack ++ [k]) al p) p) (fun c => derive n d cache (stack ++ [k]) al prov true true c) prov st al k b); destruct (body d (fun p => getitem d cache (derive n d cache (stack ++ [k]) al p) p) (fun c => derive n d cache (stack ++ [k]) al prov true true c) prov st al k b) as [b1 [a|[]]] end; try discriminate.
  - destruct stack; discriminate.
  - exact E.
Qed.
End Closed.

Lemma texts_In d k t a v s : In (k, t) (dd_defs d) -> tget a t = Some v -> In s (texts_of v) -> In s (dict_names d).
Proof.
  intros I T S. unfold dict_names. apply in_or_app. right. apply in_flat_map. exists (k, t). split; [exact I|]. cbn [snd]. apply in_flat_map. exists (lower a, v). split; [now apply (dget_In str_eqb str_eqb_spec) in T|exact S].
Qed.
Lemma names_texts v s : In s (names_in v) -> In s (texts_of v).
Proof. destruct v; cbn [names_in texts_of]; auto; intros H; [now right|contradiction]. Qed.
Lemma closed_names d L key : methods_ask d L -> objects_in d L -> closed d (key :: dict_names d ++ L).
Proof.
  intros M O. assert (forall s, In s (dict_names d) -> In s (key :: dict_names d ++ L)) as U by (intros; right; now apply in_or_app; left). constructor.
  - intros k t I. apply U. unfold dict_names. apply in_or_app. left. apply in_map_iff. now exists (k, t).
  - intros k v n I J. apply U. unfold alias_table in I. apply in_flat_map in I as ([k' t'] & I & T). cbn [fst snd] in T. destruct (tget _ t') as [w|] eqn:E; [|contradiction]. destruct T as [[= <- <-]|[]].
    apply (texts_In d k' t' _ _ n I E). now apply names_texts.
  - intros k c E. apply U. unfold category_of in E. destruct (def_of d k) as [t|] eqn:D; [|discriminate]. cbn [obind] in E. destruct (tget a_category t) as [[s| | | | |]|] eqn:T; try discriminate. injection E as ->.
    apply (texts_In d _ t _ _ c (def_of_In _ _ _ D) T). now left.
  - intros k t s D T. apply U. apply (texts_In d _ t _ _ s (def_of_In _ _ _ D) T). now left.
  - intros k p I. specialize (M k p I). clear I. induction p as [v|e|n next IH|n next IH|n next IH]; cbn [asks] in *; auto.
    + destruct M as [I M]. split; [right; apply in_or_app; now right|auto].
    + destruct M as [I M]. split; [right; apply in_or_app; now right|auto].
  - intros k t a v s I T S. apply U. now apply (texts_In d k t a v).
  - intros c o n E. right. apply in_or_app. right. now apply (O c o).
Qed.
Theorem read_ends d L cache prov key b : methods_ask d L -> objects_in d L -> snd (read (S (length (key :: dict_names d ++ L))) d cache prov key b) <> Err XFuel.
Proof.
  intros M O. unfold read. apply ends_getitem. intros a s. apply (ends_derive d _ (closed_names d L key M O)).
  - constructor.
  - intros x [].
  - now left.
  - cbn [length]. lia.
Qed.
