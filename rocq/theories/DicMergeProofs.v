(** Proofs about merge_dic. *)
From Coq Require Import String Ascii List NArith ZArith Bool Permutation Lia.
From Verif Require Import PyBase PyFacts StarBlockModel StarBlockSpec StarBlockProofs StarBlockProofs3 ScanModel CollectionModel CollectionSpec CollectionProofs CollectionProofs2 CollectionProofs3
  MergeModel MergeProofs CollMergeModel CollMergeSpec CollMergeProofs DicMergeModel DicMergeSpec.
Import ListNotations.
Open Scope nat_scope.

(** ** Matching by names *)
Lemma texts_eq_map : forall l m, texts_eq (map VStr l) (map VStr m) = true -> l = m.
Proof.
  induction l as [|x l IH]; intros [|y m] E; try discriminate E; [reflexivity|].
  cbn [map texts_eq text_eq] in E. apply andb_true_iff in E as (E1 & E2). destruct (str_eqb_spec x y) as [->|]; [|discriminate].
  f_equal. now apply IH.
Qed.
Lemma exists_text : forall s l, existsb (att_eq (VStr s)) (map VStr l) = true -> In s l.
Proof.
  intros s l E. apply existsb_exists in E as (v & I & E). apply in_map_iff in I as (t & <- & I). cbn [att_eq text_eq] in E.
  destruct (str_eqb_spec s t) as [->|]; [exact I | discriminate].
Qed.
Lemma exists_list : forall a l, (forall s, a <> VStr s) -> existsb (att_eq a) (map VStr l) = false.
Proof.
  intros a l N. destruct (existsb _ _) eqn:E; [|reflexivity]. apply existsb_exists in E as (v & I & E). apply in_map_iff in I as (t & <- & I).
  destruct a; try discriminate E. exfalso. eapply N. reflexivity.
Qed.
Lemma no_match : forall a t l m, texts_of a l -> texts_of t m -> l <> [] -> (forall s, In s l -> ~ In s m) -> att_match (Some a) (Some t) = false.
Proof.
  intros a t l m A T Nl D. unfold att_match. apply orb_false_iff. split.
  - destruct (att_eq a t) eqn:E; [|reflexivity]. exfalso. destruct l as [|x l]; [congruence|]. apply (D x (or_introl eq_refl)).
    inversion A; subst; inversion T; subst; cbn [att_eq] in E; try discriminate E.
    + cbn [text_eq] in E. destruct (str_eqb_spec x s) as [->|]; [now left | discriminate].
    + apply (texts_eq_map (x :: l)) in E. subst. now left.
    + apply (texts_eq_map (x :: l)) in E. subst. now left.
    + apply (texts_eq_map (x :: l)) in E. subst. now left.
    + apply (texts_eq_map (x :: l)) in E. subst. now left.
  - inversion T; subst; try reflexivity; inversion A; subst.
    1,4: match goal with |- ?b = false => destruct b eqn:E; [|reflexivity] end; apply exists_text in E; exfalso; exact (D s (or_introl eq_refl) E).
    all: apply exists_list; intros s; discriminate.
Qed.

Lemma att_some : forall a k c b v, c_get k c = Ret b -> get_item a b = Ret v -> att_of a k c = Ret (Some v).
Proof. intros a k c b v E E'. unfold att_of. rewrite E. cbn [obind]. now rewrite E'. Qed.
Lemma att_none : forall a k c b, c_get k c = Ret b -> get_item a b = Raise KeyErr -> att_of a k c = Ret None.
Proof. intros a k c b E E'. unfold att_of. rewrite E. cbn [obind]. now rewrite E'. Qed.

Definition fits (o : option value) (l : list str) : Prop := match o with Some v => texts_of v l /\ l <> [] | None => l = [] end.
Lemma att_defines : forall k c b l, c_get k c = Ret b -> defines b l -> exists o, att_of (u "_name") k c = Ret o /\ fits o l.
Proof.
  intros k c b l E D. inversion D as [b0 v l0 G T N|b0 G]; subst.
  - exists (Some v). split; [exact (att_some _ k c b v E G)|]. split; assumption.
  - exists None. split; [exact (att_none _ k c b E G)|reflexivity].
Qed.

Lemma atts_defined : forall c keys, (forall k, In k keys -> exists b l, c_get k c = Ret b /\ In (k, b) (c_dict c) /\ defines b l) ->
  exists items, atts_of (u "_name") keys c = Ret items /\
    forall t, In t items -> exists k b l, In (k, b) (c_dict c) /\ defines b l /\ fits t l.
Proof.
  intros c keys. induction keys as [|k r IH]; intros H; cbn [atts_of].
  - exists []. split; [reflexivity|]. intros t [].
  - destruct (H k (or_introl eq_refl)) as (b & l & G & I & D). destruct (att_defines k c b l G D) as (o & E & F).
    destruct IH as (items & Ei & Hi); [intros x Ix; apply H; now right|]. rewrite E, Ei. cbn [obind].
    exists (o :: items). split; [reflexivity|]. intros t [<-|It]; [exists k, b, l; auto | now apply Hi].
Qed.

Lemma first_match_all : forall av items, (forall t, In t items -> att_match av t = false) -> first_match av items = None.
Proof.
  intros av items. induction items as [|t r IH]; intros H; [reflexivity|]. cbn [first_match].
  rewrite (H t (or_introl eq_refl)), IH; [reflexivity|]. intros x I. apply H. now right.
Qed.

Lemma merge_disjoint_names : forall mode n c,
  CWF c -> visible_ok c -> CWF n -> plain_ids n -> parents_first (c_child n) ->
  (forall k, In k (ckeys n) -> ~ In k (ckeys c)) ->
  (forall k e, In (k, e) (c_child n) -> fine_name (pc_id e) /\ pc_id e <> u "") ->
  (forall k b, In (k, b) (c_dict n) -> fine_block (c_std c) b) ->
  all_define n -> all_define c -> nothing_twice n c ->
  exists c', coll_merge (Some mode) None (u "") (Some (u "_name")) n c = (c', Ret tt) /\ CWF c' /\ visible_ok c'
    /\ (forall x, In x (ckeys c') <-> In x (ckeys c) \/ In x (ckeys n))
    /\ (forall x, In x (ckeys c) -> c_get x c' = c_get x c /\ entry_of c' x = entry_of c x)
    /\ (forall x b, In (x, b) (c_dict n) -> c_get x c' = Ret (stored c b))
    /\ (forall x e, In (x, e) (c_child n) -> entry_of c' x = Some (PC (pc_id e) (given_parent None (pc_parent e))))
    /\ c_order c' = c_order c ++ map fst (c_child n) /\ c_std c' = c_std c.
Proof.
  intros mode n c W V Wn Pn PF Dis Fn FB An Ac Tw.
  destruct (atts_defined c (c_vis c)) as (items & Ei & Hi).
  { intros k Ik. assert (Kc : In k (ckeys c)) by now apply (visible_key c k W V).
    pose proof (cw_low _ W k Kc) as Lk. unfold ckeys in Kc. apply in_map_iff in Kc as ((k0, b) & E0 & Ib). cbn [fst] in E0. subst k0.
    destruct (Ac k b Ib) as (l & D). exists b, l. split; [|split; assumption]. apply c_get_spec; [exact W|]. now rewrite Lk. }
  apply (merge_disjoint_matched (Some mode) None (u "") (Some (u "_name")) n c items Ei); try assumption.
  - intros k e Ik. pose proof (Pn k e Ik) as Lk.
    assert (Kn : In k (ckeys n)). { eapply Permutation_in; [apply (cw_table _ Wn)|]. apply (in_map fst) in Ik. exact Ik. }
    unfold ckeys in Kn. apply in_map_iff in Kn as ((k0, b) & E0 & Ib). cbn [fst] in E0. subst k0.
    destruct (An k b Ib) as (l & D).
    assert (G : c_get (pc_id e) n = Ret b) by (apply c_get_spec; [exact Wn|]; now rewrite Lk).
    destruct (att_defines (pc_id e) n b l G D) as (o & E & F). exists o. split; [exact E|].
    apply first_match_all. intros t It. destruct (Hi t It) as (k' & b' & l' & Ib' & D' & F').
    destruct o as [v|]; [|reflexivity]. destruct t as [v'|]; [|reflexivity].
    destruct F as (T & N), F' as (T' & N'). apply (no_match v v' l l' T T' N). exact (Tw k b k' b' l l' Ib Ib' D D').
  - intros q E. discriminate E.
Qed.

(** ** Two DDL1 dictionaries with an on_this_dictionary block *)
Lemma add_block_keeps : forall x k name b c, top_level x c -> k <> x -> top_level x (add_block k name None b c).
Proof.
  intros x k name b c (L & V & id & I) N. unfold add_block, set_dict, set_lower, set_corder, set_child, set_vis, top_level. cbv zeta. cbn [c_lower c_vis c_child].
  split; [|split].
  - destruct (smem k (c_lower c)); [exact L|]. apply in_or_app. now left.
  - apply in_or_app. now left.
  - exists id. clear L V. revert I. generalize (c_child c) as t. induction t as [|[k0 e0] t IH]; intros I; [contradiction|]. cbn [dset].
    destruct (str_eqb_spec k k0) as [->|]; destruct I as [[= -> ->]|I].
    + congruence.
    + right. exact I.
    + now left.
    + right. now apply IH.
Qed.
Lemma fresh_go_fresh : forall fuel k keys k', fresh_go fuel k keys = Ret k' -> ~ In k' keys.
Proof.
  induction fuel as [|f IH]; intros k keys k'; cbn [fresh_go]; destruct (smem k keys) eqn:M; try discriminate.
  - intros [= <-]. now apply smem_false.
  - apply IH.
  - intros [= <-]. now apply smem_false.
Qed.
Lemma add_block_std : forall k name p b c, c_std (add_block k name p b c) = c_std c.
Proof.
  intros. unfold add_block, set_dict, set_lower, set_corder, set_child, set_vis. cbv zeta. cbn [c_lower c_scope c_std].
  destruct p as [q|]; [|reflexivity]. destruct (smem _ _); [|reflexivity]. destruct (c_scope c); reflexivity.
Qed.
Lemma new_block_keeps : forall x name b c c' r, c_std c <> StdNone -> top_level x c -> new_block name b true None c = (c', Ret r) ->
  top_level x c' /\ c_std c' = c_std c.
Proof.
  intros x name b c c' r S T. unfold new_block. destruct (match c_std c with StdCif => _ | _ => _ end) as [b1 [[]|e]]; [|discriminate].
  destruct (Nat.ltb _ _); [discriminate|]. set (k := lower (fix_name true name)).
  destruct (smem k (c_lower c)) eqn:M.
  - destruct (c_std c) eqn:Sc; [congruence| |].
    all: destruct (smem k (with_parent None (c_child c))); [discriminate|].
    all: destruct (fresh_key k (c_lower c)) as [k'|e] eqn:F; [|discriminate]; intros [= <- _].
    all: split; [|rewrite add_block_std; exact Sc]; apply add_block_keeps; [exact T|].
    all: intros ->; apply fresh_go_fresh in F; apply F; apply T.
  - intros [= <- _]. split; [|apply add_block_std]. apply add_block_keeps; [exact T|]. intros ->. apply smem_false in M. apply M. apply T.
Qed.
Lemma new_block_taken : forall x name b c c' r, c_std c <> StdNone -> top_level x c -> lower (fix_name true name) = x ->
  new_block name b true None c <> (c', Ret r).
Proof.
  intros x name b c c' r S (L & V & id & I) E. unfold new_block. destruct (match c_std c with StdCif => _ | _ => _ end) as [b1 [[]|e]]; [|discriminate].
  destruct (Nat.ltb _ _); [discriminate|]. cbv zeta. rewrite E.
  rewrite (proj2 (smem_In x (c_lower c)) L).
  assert (M : smem x (with_parent None (c_child c)) = true).
  { apply smem_In. unfold with_parent. apply in_map_iff. exists (x, PC id None). split; [reflexivity|]. apply filter_In. split; [exact I|reflexivity]. }
  rewrite M. destruct (c_std c); [congruence| |]; discriminate.
Qed.

(** The loop over the incoming blocks does not pass a block that the base has too
    and that no attribute matches. *)
Lemma merge_keys_stuck : forall mode att n x idb, flat n -> CWF n -> x <> idb -> fix_name true x = x -> lower x = x ->
  (forall items, exists av, key_att att x n = Ret av /\ first_match av items = None) ->
  forall keys items base c c', In x keys -> c_std c <> StdNone -> top_level x c ->
  merge_keys mode None idb att keys items base n c <> (c', Ret tt).
Proof.
  intros mode att n x idb Fl Wn Ni Fx Lx Un. induction keys as [|key r IH]; intros items base c c' Ix S T; [contradiction|].
  cbn [merge_keys]. destruct (str_eqb_spec key idb) as [Ei|Ne].
  { destruct Ix as [->|Ix]; [congruence|]. now apply IH. }
  assert (Par : forall k p, get_parent k n = Ret p -> p = None).
  { intros k p G. unfold get_parent in G. destruct (dget str_eqb (lower k) (c_child n)) as [e|] eqn:D; [|discriminate].
    injection G as <-. apply (dget_In str_eqb str_eqb_spec) in D. exact (Fl _ _ D). }
  destruct Ix as [->|Ix].
  - destruct (Un items) as (av & Ea & Ef). unfold key_att in Ea. rewrite Ea, Ef.
    assert (Hc : c_has x c = true). { unfold c_has. rewrite Lx. apply smem_In. apply T. }
    rewrite Hc. cbn [negb orb]. destruct mode.
    + discriminate.
    + destruct (get_parent x n) as [p|e] eqn:G; [|discriminate]. apply Par in G. subst p. cbn [obind].
      destruct (c_get x n) as [b|e]; [|discriminate]. cbn [obind].
      destruct (new_block x b true None c) as [c1 [k1|e]] eqn:E; [|discriminate]. exfalso. revert E. apply (new_block_taken x); try assumption. now rewrite Fx.
    + destruct (obind (c_get x c) _) as [[b nb]|e]; [|discriminate]. cbn [block_merge]. discriminate.
    + discriminate.
  - destruct (match att with None => _ | Some a => _ end) as [av|e]; [|discriminate].
    destruct (match first_match av items with None => _ | Some i => _ end) as [[[basekey items'] base']|e]; [|discriminate].
    destruct (negb (c_has basekey c) || _) eqn:B.
    + destruct (get_parent key n) as [p|e] eqn:G; [|discriminate]. apply Par in G. subst p. cbn [obind].
      destruct (c_get key n) as [b|e]; [|discriminate]. cbn [obind].
      destruct (new_block basekey b true None c) as [c1 [k1|e]] eqn:E; [|discriminate].
      destruct (new_block_keeps x basekey b c c1 k1 S T E) as (T1 & S1). apply IH; [exact Ix | congruence | exact T1].
    + destruct mode; try discriminate. destruct (obind (c_get basekey c) _) as [[b nb]|e]; [|discriminate]. cbn [block_merge]. discriminate.
Qed.

Lemma ddl1_fails : forall mode base n rest id b c',
  c_std base <> StdNone -> top_level this_dictionary base -> CWF n -> flat n -> In (this_dictionary, PC id None) (c_child n) -> id = this_dictionary ->
  c_get this_dictionary n = Ret b -> get_item (u "_name") b = Raise KeyErr ->
  merge_dic mode base (n :: rest) <> (c', Ret tt).
Proof.
  intros mode base n rest id b c' S T Wn Fl I -> G K. unfold merge_dic.
  assert (Hc : c_has this_dictionary base = true).
  { unfold c_has. change (lower this_dictionary) with this_dictionary. apply smem_In. apply T. }
  rewrite Hc. cbn [merge_blocks].
  destruct (coll_merge (Some mode) None (u "") (Some (u "_name")) n base) as [c1 [[]|e]] eqn:E; [|discriminate]. exfalso.
  unfold coll_merge in E. cbv zeta in E. destruct (atts_of _ _ _) as [items|e]; [|discriminate].
  revert E. apply (merge_keys_stuck mode (Some (u "_name")) n this_dictionary (u "")); try assumption; try reflexivity.
  - discriminate.
  - intros it. exists None. split; [exact (att_none _ _ n b G K)|apply first_match_none].
  - apply in_map_iff. exists (this_dictionary, PC this_dictionary None). split; [reflexivity|exact I].
Qed.

(** ** Dictionaries with one data block *)
Lemma set_block_frame : forall k b c, set_block k b c = set_dict (dset str_eqb (lower k) b (c_dict c)) c.
Proof. reflexivity. Qed.
Definition only_contents (k : str) (c c' : coll) : Prop :=
  c_child c' = c_child c /\ c_vis c' = c_vis c /\ c_order c' = c_order c /\ c_lower c' = c_lower c /\
  (forall x b, In (x, b) (c_dict c') -> x <> k -> In (x, b) (c_dict c)) /\ ckeys c' = ckeys c.
Lemma only_refl : forall k c, only_contents k c c.
Proof. intros. repeat split; auto. Qed.
Lemma dset_present : forall (b : block) k t, In k (map fst t) -> map fst (dset str_eqb k b t) = map fst t /\
  forall x b', In (x, b') (dset str_eqb k b t) -> x <> k -> In (x, b') t.
Proof.
  intros b k t. induction t as [|[k0 b0] t IH]; intros I; [contradiction|]. cbn [dset map fst].
  destruct (str_eqb_spec k k0) as [->|N].
  - split; [reflexivity|]. intros x b' [[= -> ->]|J] Nx; [congruence|now right].
  - destruct I as [E|I]; [cbn in E; congruence|]. destruct (IH I) as (A & B). split; [cbn [map fst]; now rewrite A|].
    intros x b' [[= -> ->]|J] Nx; [now left|right; now apply B].
Qed.
Lemma set_block_only : forall k b c, lower k = k -> In k (ckeys c) -> only_contents k c (set_block k b c).
Proof.
  intros k b c L I. unfold set_block, set_dict, only_contents, ckeys. cbn [c_child c_vis c_order c_lower c_dict]. rewrite L.
  destruct (dset_present b k (c_dict c) I) as (A & B). repeat split; auto.
Qed.
Lemma only_trans : forall k a b c, only_contents k a b -> only_contents k b c -> only_contents k a c.
Proof.
  intros k a b c (A1 & A2 & A3 & A4 & A5 & A6) (B1 & B2 & B3 & B4 & B5 & B6).
  repeat split; try congruence. intros x y I N. apply A5; [|exact N]. now apply B5.
Qed.
Lemma get_present : forall k c b, lower k = k -> c_get k c = Ret b -> In k (ckeys c).
Proof.
  intros k c b L E. unfold c_get in E. rewrite L in E. destruct (smem _ _); [|discriminate].
  destruct (dget str_eqb k (c_dict c)) as [b'|] eqn:D; [|discriminate]. apply (dget_In str_eqb str_eqb_spec) in D. apply (in_map fst) in D. exact D.
Qed.
Lemma mains_only : forall mode mine rest base c' r, lower mine = mine -> merge_mains mode mine rest base = (c', r) -> only_contents mine base c'.
Proof.
  intros mode mine rest base c' r L. revert base. induction rest as [|n rest IH]; intros base; cbn [merge_mains].
  - intros [= <- _]. apply only_refl.
  - destruct (c_vis n) as [|other vs]; [intros [= <- _]; apply only_refl|].
    unfold merge_single. destruct (c_get mine base) as [b|e] eqn:G; [|intros [= <- _]; apply only_refl].
    destruct (c_get other n) as [nb|e]; [|intros [= <- _]; apply only_refl].
    destruct (block_merge mode _ nb b) as [b' [[]|e]].
    + intros E. apply IH in E. eapply only_trans; [|exact E]. apply set_block_only; [exact L|exact (get_present mine base b L G)].
    + intros [= <- _]. apply set_block_only; [exact L|exact (get_present mine base b L G)].
Qed.

(** ** Main blocks that do not allow overwriting *)
Lemma replace_items_locked : forall nb n, lower n = n -> forall keys b b', In n keys -> In n (b_keys b) -> b_over b = false ->
  replace_items keys nb b <> (b', Ret tt).
Proof.
  intros nb n Ln. induction keys as [|k r IH]; intros b b' I K O; [contradiction|]. cbn [replace_items].
  unfold copy_item. destruct (get_item k nb) as [v|e]; [|discriminate]. destruct I as [->|I].
  - destruct (locked_add n v b O) as (e & E); [apply has_key_In; now rewrite Ln|]. rewrite E. discriminate.
  - destruct (set_item k v b) as [b1 [[]|e]] eqn:E; [|discriminate]. apply IH; [exact I| |].
    + apply (set_item_keys _ _ _ _ E). now left.
    + pose proof (set_item_over k v b) as H. rewrite E in H. cbn [fst] in H. congruence.
Qed.
Lemma common_fails : forall mode exc nb b n b', mode <> MOther -> WF nb -> b_over b = false ->
  In n (b_keys nb) -> In n (b_keys b) -> ~ In n exc -> block_merge mode exc nb b <> (b', Ret tt).
Proof.
  intros mode exc nb b n b' M W O In1 In2 Nx E. pose proof (wf_low nb W n In1) as Ln. destruct mode; [| |discriminate|congruence]; cbn [block_merge] in E.
  - destruct (strict_items_common exc (b_keys nb) nb n In1 Ln Nx b In2) as (e & F). unfold loops_and_case in E.
    destruct (strict_items exc (b_keys nb) nb b) as [b1 [[]|e1]]; [|discriminate E]. discriminate F.
  - unfold loops_and_case in E. destruct (replace_items (b_keys nb) nb b) as [b1 [[]|e]] eqn:R; [|discriminate].
    exact (replace_items_locked nb n Ln (b_keys nb) b b1 In1 In2 O R).
Qed.

(** ** Many files of definitions *)
Lemma same_get : forall a b k, same_contents a b -> get_item k b = get_item k a.
Proof. intros a b k (D & L & O & T). destruct a, b. cbn in *. subst. reflexivity. Qed.
Lemma same_defines : forall a b l, same_contents a b -> defines b l -> defines a l.
Proof.
  intros a b l S D. inversion D as [? v ? G T N|? G]; subst; rewrite (same_get a b _ S) in G.
  - exact (defines_some a v l G T N).
  - exact (defines_none a G).
Qed.
Lemma same_refl : forall a, same_contents a a.
Proof. intros. repeat split. Qed.
Lemma same_sym : forall a b, same_contents a b -> same_contents b a.
Proof. intros a b (A & B & C & D). repeat split; congruence. Qed.
Lemma stored_same : forall c b, same_contents b (stored c b).
Proof.
  intros c b. unfold stored, set_characterset. destruct (c_std c); cbn [b_data b_loops b_order b_true]; try (repeat split; fail).
  all: unfold setmaxnamelength; destruct (_ && _); cbn [fst]; repeat split.
Qed.
Lemma dict_get : forall c x b, CWF c -> In (x, b) (c_dict c) -> c_get x c = Ret b.
Proof.
  intros c x b W I. apply c_get_spec; [exact W|]. rewrite (cw_low _ W); [exact I|]. apply (in_map fst) in I. exact I.
Qed.
Lemma nothing_sym : forall a b, nothing_twice a b -> nothing_twice b a.
Proof. intros a b H k x k' x' l l' I I' D D' s J J'. exact (H k' x' k x l' l I' I D' D s J' J). Qed.

Lemma merge_many : forall mode ns c, CWF c -> visible_ok c -> all_define c -> Forall (addable (c_std c)) ns ->
  Forall (apart c) ns -> ForallOrdPairs apart ns ->
  exists c', merge_blocks mode ns c = (c', Ret tt) /\ CWF c' /\
    (forall x, In x (ckeys c') <-> In x (ckeys c) \/ exists n, In n ns /\ In x (ckeys n)) /\
    (forall x b, In (x, b) (c_dict c) -> c_get x c' = Ret b) /\
    (forall n x b, In n ns -> In (x, b) (c_dict n) -> exists b', c_get x c' = Ret b' /\ same_contents b b').
Proof.
  intros mode ns. induction ns as [|n ns IH]; intros c W V A Ad Ap Pw.
  - exists c. split; [reflexivity|]. split; [exact W|]. split; [|split].
    + intros x. split; [auto|]. intros [H|(n & [] & _)]. exact H.
    + intros x b I. exact (dict_get c x b W I).
    + intros n x b [].
  - pose proof (Forall_inv Ad) as An. pose proof (Forall_inv_tail Ad) as Ads. pose proof (Forall_inv Ap) as (Dn & Tn). pose proof (Forall_inv_tail Ap) as Aps.
    inversion Pw as [|? ? Pn Pws]; subst. destruct An as [Wn Ids Fl Nm Df].
    destruct (merge_disjoint_names mode n c W V Wn) as (c1 & E1 & W1 & V1 & K1 & G1 & D1 & _ & _ & S1).
    + intros k e I. apply (Ids k e I).
    + intros l1 k e p l2 El P. exfalso. assert (I : In (k, e) (c_child n)) by (rewrite El; apply in_elt). rewrite (Fl k e I) in P. discriminate P.
    + intros k I J. exact (Dn k J I).
    + intros k e I. destruct (Ids k e I) as (_ & N & L & F). split; [split; assumption|exact N].
    + intros k b I Sc x J. exact (Nm k b I Sc x J).
    + exact Df.
    + exact A.
    + exact (nothing_sym _ _ Tn).
    + assert (B1 : forall x b1, In (x, b1) (c_dict c1) -> exists b, same_contents b b1 /\ (In (x, b) (c_dict c) \/ In (x, b) (c_dict n))).
      { intros x b1 I1. pose proof (dict_get c1 x b1 W1 I1) as G. assert (J : In x (ckeys c1)) by (apply (in_map fst) in I1; exact I1).
        apply K1 in J. destruct J as [J|J]; unfold ckeys in J; apply in_map_iff in J as ((x0, b) & E0 & Ib); cbn [fst] in E0; subst x0; exists b.
        - rewrite (proj1 (G1 x (in_map fst _ _ Ib))), (dict_get c x b W Ib) in G. injection G as <-. split; [apply same_refl|now left].
        - rewrite (D1 x b Ib) in G. injection G as <-. split; [apply stored_same|now right]. }
      destruct (IH c1 W1 V1) as (c' & E & W' & K & G & D).
      * intros x b1 I1. destruct (B1 x b1 I1) as (b & S & [I|I]); [destruct (A x b I) as (l & Dl)|destruct (Df x b I) as (l & Dl)];
          exists l; exact (same_defines b1 b l (same_sym _ _ S) Dl).
      * rewrite S1. exact Ads.
      * rewrite Forall_forall in Aps, Pn |- *. intros m Im. destruct (Aps m Im) as (P1 & P2), (Pn m Im) as (Q1 & Q2). split.
        -- intros k I J. apply K1 in I as [I|I]; [exact (P1 k I J)|exact (Q1 k I J)].
        -- intros k b1 k' b' l l' I1 I' Dl Dl'. destruct (B1 k b1 I1) as (b & S & [I|I]).
           ++ exact (P2 k b k' b' l l' I I' (same_defines b b1 l S Dl) Dl').
           ++ exact (Q2 k b k' b' l l' I I' (same_defines b b1 l S Dl) Dl').
      * exact Pws.
      * exists c'. cbn [merge_blocks]. rewrite E1. split; [exact E|]. split; [exact W'|]. split; [|split].
        -- intros x. rewrite K, K1. split.
           ++ intros [[H|H]|(m & Im & H)]; [now left|right; exists n; split; [now left|exact H]|right; exists m; split; [now right|exact H]].
           ++ intros [H|(m & [<-|Im] & H)]; [left; now left|left; now right|right; exists m; auto].
        -- intros x b I. assert (G0 : c_get x c1 = Ret b) by (rewrite (proj1 (G1 x (in_map fst _ _ I))); exact (dict_get c x b W I)).
           apply (G x b). apply c_get_spec in G0; [|exact W1]. rewrite (cw_low _ W) in G0 by (apply (in_map fst) in I; exact I). exact G0.
        -- intros m x b [<-|Im] I.
           ++ exists (stored c b). split; [|apply stored_same]. apply (G x (stored c b)). pose proof (D1 x b I) as G0. apply c_get_spec in G0; [|exact W1].
              rewrite (cw_low _ Wn) in G0 by (apply (in_map fst) in I; exact I). exact G0.
           ++ exact (D m x b Im I).
Qed.
