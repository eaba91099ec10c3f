(** Derived values are kept; aliases; defaults. *)
From Coq Require Import String Ascii List NArith ZArith Bool PeanoNat Lia Permutation.
From Verif Require Import PyBase PyFacts StarBlockModel StarBlockSpec StarBlockProofs StarBlockProofs2 StarBlockProofs3 StarBlockProofs4 LoopModel ValidateModel TreeModel DeriveModel DeriveSpec DeriveProofs DeriveProofs3 DeriveProofs4.
Import ListNotations.

Lemma bind_ok {A B} (m : act A) (f : A -> act B) b b2 v : bind m f b = (b2, Ok v) -> exists b1 a, m b = (b1, Ok a) /\ f a b1 = (b2, Ok v).
Proof. unfold bind. destruct (m b) as [b1 [a|x]]; [|discriminate]. intros H. now exists b1, a. Qed.
Lemma lift_ok {A} (o : outcome A) b b1 a : lift o b = (b1, Ok a) -> o = Ret a /\ b1 = b.
Proof. unfold lift. destruct o; [|discriminate]. now intros [= <- ->]. Qed.
Lemma change_ok f b b1 a : change f b = (b1, Ok a) -> f b = (b1, Ret tt).
Proof. unfold change. destruct (f b) as [b2 [[]|]]; [|discriminate]. now intros [= <- _]. Qed.
Lemma ret_ok {A} (a a' : A) b b1 : ret a b = (b1, Ok a') -> a' = a /\ b1 = b.
Proof. unfold ret. now intros [= <- <-]. Qed.

Lemma added_read k v b b1 : add_item k v false b = (b1, Ret tt) -> get_item k b1 = Ret v.
Proof.
  intros H. apply (set_item_read k v b b1 k); [|reflexivity]. unfold set_item. destruct (str_eqb k (u "saves")) eqn:E; [|exact H].
  destruct (str_eqb_spec k (u "saves")) as [->|]; [|discriminate]. apply add_item_ok in H as (e & C & _). destruct (check_data_name_us _ _ _ C) as (r & X). discriminate.
Qed.
Lemma create_list_read k l b : get_item k b = Ret (VList l) -> get_item k (fst (create_loop [k] (-1) true b)) = Ret (VList l).
Proof.
  intros G. rewrite <- G. apply get_item_data. rewrite create_loop_data. unfold loop_length_check. cbn [get_items]. rewrite G. cbn [obind]. reflexivity.
Qed.
Definition listy (v : value) : bool := match v with VList _ => true | _ => false end.
Lemma stored_looped d key v df b b1 w : store_looped d key v df b = (b1, Ok w) -> (df = true -> listy v = true) -> get_item key b1 = Ret w.
Proof.
  unfold store_looped. intros H L. apply bind_ok in H as (b2 & cat & E & H). apply lift_ok in E as [_ ->]. apply bind_ok in H as (b3 & out & E & H).
  assert (b3 = b /\ exists l, out = VList l) as [-> [l ->]].
  { destruct df; [apply ret_ok in E as [-> ->]; split; auto; specialize (L eq_refl); destruct v; try discriminate; eauto|].
    apply bind_ok in E as (b4 & l & E & F). apply lift_ok in E as [_ ->]. apply ret_ok in F as [-> ->]. split; eauto. }
  clear E. apply bind_ok in H as (b4 & pr & E & H). injection E as <- E. apply bind_ok in H as (b5 & [] & F & H). apply change_ok in F. apply bind_ok in H as (b6 & [] & G & H). apply change_ok in G. apply ret_ok in H as [-> ->].
  apply added_read in F. destruct pr as [|n pr].
  - change b6 with (fst (b6, @Ret unit tt)). rewrite <- G. now apply create_list_read.
  - rewrite <- F. apply get_item_data. change b6 with (fst (b6, @Ret unit tt)). rewrite <- G. now rewrite add_loop_name_data.
Qed.
Lemma adjust_listy d ask cat p v df b b1 w : adjust d ask cat p v df b = (b1, Ok (w, true)) -> df = true -> listy w = true.
Proof.
  unfold adjust. intros H ->. apply bind_ok in H as (b2 & ct & E & H). destruct (is_loop ct).
  - destruct p as [|n p]; [apply ret_ok in H as [H _]; injection H as ->; reflexivity|]. apply bind_ok in H as (b3 & x & F & H). apply bind_ok in H as (b4 & len & G & H). apply ret_ok in H as [H _]. injection H as ->. reflexivity.
  - apply ret_ok in H as [H _]. discriminate.
Qed.
Lemma store_result_read d key cat v lp df t b b1 w : def_of d key = Ret t -> is_item_def t = true -> (lp = true -> df = true -> listy v = true) ->
  store_result d key cat v lp df b = (b1, Ok w) -> get_item key b1 = Ret w.
Proof.
  intros D T L H. unfold store_result in H. apply bind_ok in H as (b2 & t' & E & H). apply lift_ok in E as [E ->]. rewrite D in E. injection E as <-. rewrite T in H. destruct lp.
  - eapply stored_looped; eauto.
  - unfold store_unlooped in H. apply bind_ok in H as (b3 & [] & F & H). apply change_ok in F. apply ret_ok in H as [-> ->]. now apply added_read in F.
Qed.
(** Nothing in the block or the dictionary gives the name another name. *)
Definition no_alias (d : ddict) (key : str) (b : block) : Prop :=
  (forall k, In k (own_aliases d key) -> has_key k b = false) /\ (forall k v, In (k, v) (alias_table d) -> name_in key v = false).
Lemma filter_none {A} (f : A -> bool) l : (forall x, In x l -> f x = false) -> filter f l = [].
Proof. induction l as [|x l IH]; intros H; [reflexivity|]. cbn [filter]. rewrite (H x (or_introl eq_refl)). apply IH. intros y I. apply H. now right. Qed.
Lemma resolve_self d ask key b : no_alias d key b -> resolve d ask key b = (b, Ok (inr key)).
Proof.
  intros [H1 H2]. unfold resolve. rewrite (filter_none _ _ H1). rewrite filter_none; [reflexivity|]. intros [k v] I. now apply (H2 k v).
Qed.
Lemma populate_nothing d ask c cat key b b1 v : not_built d cat -> populate d ask c cat key b = (b1, Ok v) -> b1 = b /\ v = None.
Proof.
  intros [M N] H. unfold populate in H. apply bind_ok in H as (b2 & sources & E & H). apply lift_ok in E as [E ->].
  assert (forall l, (forall k t, In (k, t) l -> tget c_components t = None) -> component_cats d l = Ret []) as G.
  { induction l as [|[k t] l IH]; intros F; [reflexivity|]. cbn [component_cats]. rewrite (F k t) by now left. apply IH. intros k' t' I. apply (F k'). now right. }
  unfold pulled_to in E. rewrite G in E by (intros k t I; now apply (N k)). cbn in E. injection E as <-.
  apply bind_ok in H as (b2 & t & E & H). apply lift_ok in E as [E ->]. assert (tget c_type t = None) as TN by (apply (N (lower cat)); unfold def_of in E; destruct (dget _ _ _) eqn:D; [injection E as ->; now apply (dget_In str_eqb str_eqb_spec) in D|discriminate]). rewrite TN in H.
  apply bind_ok in H as (b2 & r1 & E1 & H). apply ret_ok in E1 as [-> ->]. apply bind_ok in H as (b2 & r2 & E1 & H). apply ret_ok in E1 as [-> ->]. rewrite M in H. now apply ret_ok in H as [-> ->].
Qed.
Lemma body_stored d ask c prov allow key cat t b b1 v : no_alias d key b -> category_of d key = Ret cat -> not_built d cat -> def_of d key = Ret t -> is_item_def t = true ->
  body d ask c prov true allow key b = (b1, Ok v) -> empty_list v = false -> get_item key b1 = Ret v.
Proof.
  intros NA EC EM D T H V. unfold body in H. apply bind_ok in H as (b2 & r & E & H). rewrite (resolve_self _ _ _ _ NA) in E. injection E as <- <-.
  apply bind_ok in H as (b3 & cat' & E & H). apply lift_ok in E as [E ->]. rewrite EC in E. injection E as <-. cbv zeta in H.
  apply bind_ok in H as (b3 & p1 & E & H). injection E as <- E. apply bind_ok in H as (b3 & early & F & H).
  assert (b3 = b /\ early = None) as [-> ->].
  { destruct p1; [|now apply ret_ok in F as [-> ->]]. now apply populate_nothing in F as [-> ->]. }
  clear F. apply bind_ok in H as (b3 & p2 & F & H). injection F as <- F. apply bind_ok in H as (b3 & mv & G & H). apply bind_ok in H as (b4 & [w df] & K & H). cbn [fst snd] in H.
  assert (bind (adjust d (ask prov) cat p2 w df) (fun wl => if negb (empty_list (fst wl)) && true then store_result d key cat (fst wl) (snd wl) df else ret (fst wl)) b4 = (b1, Ok v)) as M by (destruct w; exact H || discriminate).
  apply bind_ok in M as (b5 & [x lp] & A & M). cbn [fst snd] in M. destruct (empty_list x) eqn:X.
  - cbn [negb andb] in M. apply ret_ok in M as [-> _]. congruence.
  - cbn [negb andb] in M. apply (store_result_read d key cat x lp df t b5 b1 v D T); auto. intros -> ->. now apply adjust_listy in A.
Qed.
Lemma derive_ok n d cache prov allow key b b1 v : derive n d cache [] false prov allow true key b = (b1, Ok v) ->
  exists ask c, body d ask c prov true allow key b = (b1, Ok v).
Proof.
  destruct n as [|n]; [discriminate|]. cbn [derive]. change (mem str_eqb key []) with false. cbv beta iota zeta. intros H.
  match type of H with match ?X with _ => _ end = _ => destruct X as [b2 [a|[]]] eqn:E end; try discriminate. injection H as <- <-. eauto.
Qed.
Lemma derive_stored n d cache prov allow key cat t b b1 v : no_alias d key b -> category_of d key = Ret cat -> not_built d cat -> def_of d key = Ret t -> is_item_def t = true ->
  derive n d cache [] false prov allow true key b = (b1, Ok v) -> empty_list v = false -> get_item key b1 = Ret v.
Proof. intros NA EC EM D T H V. apply derive_ok in H as (ask & c & H). eapply body_stored; eauto. Qed.
Lemma full_of_item k b v : get_item k b = Ret v -> exists f, get_full k b = Ret (v, f).
Proof. unfold get_item. destruct (str_eqb _ _); [discriminate|]. destruct (get_full k b) as [[w f]|]; [|discriminate]. cbn [obind fst]. intros [= ->]. eauto. Qed.
Lemma absent_full k b : has_key k b = false -> get_full k b = Raise KeyErr.
Proof. unfold has_key, dmem, get_full. destruct (dget _ _ _); [discriminate|reflexivity]. Qed.
Lemma read_again m d cache key b v : get_item key b = Ret v -> read m d cache false key b = (b, Ok v).
Proof.
  intros G. unfold read, getitem. destruct (str_eqb key (u "saves")) eqn:S. { unfold get_item in G. rewrite S in G. discriminate. }
  destruct (full_of_item _ _ _ G) as [f ->]. destruct (negb _); [reflexivity|]. destruct f; reflexivity.
Qed.
(** During the first attempt other items may be stored, but nothing that names [key] otherwise. *)
Definition never_alias (d : ddict) (key : str) : Prop := own_aliases d key = [] /\ (forall k v, In (k, v) (alias_table d) -> name_in key v = false).
Lemma never_no_alias d key b : never_alias d key -> no_alias d key b.
Proof. intros [H1 H2]. split; [|exact H2]. rewrite H1. intros k []. Qed.
Theorem read_stored n d prov key cat t b b1 v : has_key key b = false -> never_alias d key -> category_of d key = Ret cat -> not_built d cat -> def_of d key = Ret t -> is_item_def t = true ->
  read n d true prov key b = (b1, Ok v) -> empty_list v = false -> get_item key b1 = Ret v.
Proof.
  intros K NA EC EM D T H V. unfold read, getitem in H. destruct (str_eqb key (u "saves")); [discriminate|]. rewrite (absent_full _ _ K) in H. unfold attempts in H.
  destruct (derive n d true [] false prov false true key b) as [b2 [a|x]] eqn:E.
  - injection H as <- <-. eapply derive_stored; eauto using never_no_alias.
  - destruct x; try discriminate. destruct (derive n d true [] false prov true true key b2) as [b3 [a|x]] eqn:F.
    + injection H as <- <-. eapply derive_stored; eauto using never_no_alias.
    + destruct x; discriminate.
Qed.
