(** C106: merging dictionaries (merge_dic, src/CifFile_module.nw 4352-4374). *)
From Coq Require Import String Ascii List NArith ZArith Bool Permutation Lia.
From Verif Require Import PyBase PyFacts StarBlockModel StarBlockSpec StarBlockProofs ScanModel CollectionModel CollectionSpec CollectionProofs CollectionProofs2 CollectionProofs3
  MergeModel PropertiesCollection CollMergeModel CollMergeSpec CollMergeProofs DicMergeModel DicMergeSpec DicMergeProofs.
Import ListNotations.
Open Scope nat_scope.

(** A DDL1 dictionary and a file of definitions, with other blocks and other names:
    in every mode all definitions are there afterwards. *)
Theorem C106_disjoint : forall mode n c,
  CWF c -> visible_ok c -> CWF n -> plain_ids n -> parents_first (c_child n) -> c_has this_dictionary c = true ->
  (forall k, In k (ckeys n) -> ~ In k (ckeys c)) ->
  (forall k e, In (k, e) (c_child n) -> fine_name (pc_id e) /\ pc_id e <> u "") ->
  (forall k b, In (k, b) (c_dict n) -> fine_block (c_std c) b) ->
  all_define n -> all_define c -> nothing_twice n c ->
  exists c', merge_dic mode c [n] = (c', Ret tt) /\ CWF c' /\ visible_ok c'
    /\ (forall x, In x (ckeys c') <-> In x (ckeys c) \/ In x (ckeys n))
    /\ (forall x, In x (ckeys c) -> c_get x c' = c_get x c /\ entry_of c' x = entry_of c x)
    /\ (forall x b, In (x, b) (c_dict n) -> c_get x c' = Ret (stored c b))
    /\ c_order c' = c_order c ++ map fst (c_child n).
Proof.
  intros mode n c W V Wn Pn PF H Dis Fn FB An Ac Tw.
  destruct (merge_disjoint_names mode n c W V Wn Pn PF Dis Fn FB An Ac Tw) as (c' & E & W' & V' & K & G & D & _ & O & _).
  exists c'. unfold merge_dic. rewrite H. cbn [merge_blocks]. rewrite E. repeat (split; [assumption || reflexivity|]). exact O.
Qed.
(** Any number of such files that define nothing twice. *)
Theorem C106_many : forall mode c ns, c_has this_dictionary c = true ->
  CWF c -> visible_ok c -> all_define c -> Forall (addable (c_std c)) ns -> ForallOrdPairs apart (c :: ns) ->
  exists c', merge_dic mode c ns = (c', Ret tt) /\ CWF c' /\
    (forall x, In x (ckeys c') <-> In x (ckeys c) \/ exists n, In n ns /\ In x (ckeys n)) /\
    (forall x b, In (x, b) (c_dict c) -> c_get x c' = Ret b) /\
    (forall n x b, In n ns -> In (x, b) (c_dict n) -> exists b', c_get x c' = Ret b' /\ same_contents b b').
Proof.
  intros mode c ns H W V A Ad P. inversion P; subst. unfold merge_dic. rewrite H. now apply merge_many.
Qed.
(** Two whole DDL1 dictionaries, each with its on_this_dictionary block, are not
    merged in any mode. *)
Theorem C106_ddl1_fails : forall mode base n rest b c',
  c_std base <> StdNone -> top_level this_dictionary base -> CWF n -> flat n ->
  In (this_dictionary, PC this_dictionary None) (c_child n) ->
  c_get this_dictionary n = Ret b -> get_item (u "_name") b = Raise KeyErr ->
  merge_dic mode base (n :: rest) <> (c', Ret tt).
Proof. intros mode base n rest b c' S T W F I G K. exact (ddl1_fails mode base n rest this_dictionary b c' S T W F I eq_refl G K). Qed.
(** With one visible data block nothing but the contents of this block can change:
    no definition of a later dictionary is taken. *)
Theorem C106_one_block : forall mode base mine rest c' r,
  c_has this_dictionary base = false -> c_vis base = [mine] -> lower mine = mine -> merge_dic mode base rest = (c', r) ->
  c_child c' = c_child base /\ c_vis c' = c_vis base /\ c_order c' = c_order base /\ ckeys c' = ckeys base /\
  forall x b, In (x, b) (c_dict c') -> x <> mine -> In (x, b) (c_dict base).
Proof.
  intros mode base mine rest c' r H V L E. unfold merge_dic in E. rewrite H, V in E.
  destruct (mains_only mode mine rest base c' r L E) as (A1 & A2 & A3 & A4 & A5 & A6). repeat split; assumption.
Qed.
(** With several, and without an on_this_dictionary block, the later dictionaries
    are ignored. *)
Theorem C106_several : forall mode base rest, c_has this_dictionary base = false -> length (c_vis base) <> 1 -> merge_dic mode base rest = (base, Ret tt).
Proof. intros mode base rest H L. unfold merge_dic. rewrite H. destruct (c_vis base) as [|x [|y v]]; [reflexivity|exfalso; now apply L|reflexivity]. Qed.
(** Main blocks read from files cannot be overwritten, so if both have an item, such
    as the title of the dictionary, the merge fails in every mode. *)
Theorem C106_read_fails : forall mode base mine n other rest b nb name c',
  mode <> MOther -> c_has this_dictionary base = false -> c_vis base = [mine] -> c_vis n = other :: rest ->
  c_get mine base = Ret b -> b_over b = false -> c_get other n = Ret nb -> WF nb ->
  In name (b_keys b) -> In name (b_keys nb) -> name <> u "_item.name" ->
  merge_dic mode base [n] <> (c', Ret tt).
Proof.
  intros mode base mine n other rest b nb name c' M H V Vn G O Gn W Ib In Nm E. unfold merge_dic in E. rewrite H, V in E.
  cbn [merge_mains] in E. rewrite Vn in E. unfold merge_single in E. rewrite G, Gn in E.
  destruct (block_merge mode [u "_item.name"] nb b) as [b' [[]|e]] eqn:B; [|discriminate E].
  refine (common_fails mode [u "_item.name"] nb b name b' M W O In Ib _ B). intros [X|[]]. congruence.
Qed.
(** What was there before a merge that succeeds is there afterwards. *)
Theorem C106_kept : forall mode base rest c' x, c_has this_dictionary base = false -> (forall k, In k (c_vis base) -> lower k = k) ->
  merge_dic mode base rest = (c', Ret tt) -> In x (ckeys base) -> In x (ckeys c').
Proof.
  intros mode base rest c' x H L E I. destruct (c_vis base) as [|k [|k2 v]] eqn:V.
  - rewrite C106_several in E by (rewrite ?V; try assumption; discriminate). injection E as <-. exact I.
  - destruct (C106_one_block mode base k rest c' (Ret tt) H V (L k (or_introl eq_refl)) E) as (_ & _ & _ & K & _). now rewrite K.
  - rewrite C106_several in E by (rewrite ?V; try assumption; discriminate). injection E as <-. exact I.
Qed.

(** ** Findings *)
Definition item (k v : string) : block := fst (set_item (u k) (VStr (u v)) (empty_block true 0 false)).
Definition ddl1_ops (title name : string) : list cop :=
  [KNew this_dictionary (item "_dictionary_name" title) true None; KNew (u name) (item "_name" ("_" ++ name)) true None].
Definition ddl1 (title name : string) : coll := run_cops (ddl1_ops title name) (new_coll StdCif Instance false).
Definition ddl2_ops (title name : string) : list cop :=
  [KNew (u title) (item "_dictionary.title" title) true None; KNew (u name) (item "_item.name" name) true (Some (u title))].
Definition ddl2 (title name : string) : coll := run_cops (ddl2_ops title name) (new_coll StdCif Instance false).
Ltac built := refine (run_cops_ok _ _ (proj1 (new_coll_CWF _ _ _)) (proj2 (new_coll_CWF _ _ _)) _); cbn [reachable_ops ddl1_ops ddl2_ops];
  (split; [|split; [|exact I]]); (split; [|vm_compute; intros X; discriminate X]); intros q E; try discriminate E; injection E as <-; known.

Lemma one_ok : CWF (ddl1 "one" "cell") /\ visible_ok (ddl1 "one" "cell").
Proof. built. Qed.
Lemma two_ok : CWF (ddl1 "two" "atom") /\ visible_ok (ddl1 "two" "atom").
Proof. built. Qed.
Lemma core_ok : CWF (ddl2 "core" "_cell.a") /\ visible_ok (ddl2 "core" "_cell.a").
Proof. built. Qed.
Lemma more_ok : CWF (ddl2 "more" "_atom.x") /\ visible_ok (ddl2 "more" "_atom.x").
Proof. built. Qed.

Lemma in_view {A} (f : block -> A) d v k b : map (fun kb : str * block => (fst kb, f (snd kb))) d = v -> In (k, b) d -> In (k, f b) v.
Proof. intros <- I. apply in_map_iff. exists (k, b). split; [reflexivity|exact I]. Qed.
Lemma defines_is : forall b l s, get_item (u "_name") b = Ret (VStr s) -> defines b l -> l = [s].
Proof.
  intros b l s G D. inversion D as [? v ? G' T N|? G']; subst; rewrite G in G'; [|discriminate G']. injection G' as <-. inversion T; subst. reflexivity.
Qed.
Lemma defines_nothing : forall b l, get_item (u "_name") b = Raise KeyErr -> defines b l -> l = [].
Proof. intros b l G D. inversion D as [? v ? G' T N|? G']; subst; [rewrite G in G'; discriminate G'|reflexivity]. Qed.
Definition names_view (c : coll) := map (fun kb : str * block => (fst kb, get_item (u "_name") (snd kb))) (c_dict c).
Lemma in_names : forall c v k b, names_view c = v -> In (k, b) (c_dict c) -> In (k, get_item (u "_name") b) v.
Proof. intros c v k b E. exact (in_view (get_item (u "_name")) (c_dict c) v k b E). Qed.
Lemma two_view : names_view (ddl1 "two" "atom") = [(this_dictionary, Raise KeyErr); (u "atom", Ret (VStr (u "_atom")))].
Proof. vm_compute. reflexivity. Qed.
Lemma one_view : names_view (ddl1 "one" "cell") = [(this_dictionary, Raise KeyErr); (u "cell", Ret (VStr (u "_cell")))].
Proof. vm_compute. reflexivity. Qed.
Lemma defines_one_of : forall c x n, names_view c = [(this_dictionary, Raise KeyErr); (x, Ret (VStr n))] ->
  forall k b l, In (k, b) (c_dict c) -> defines b l -> forall s, In s l -> s = n.
Proof.
  intros c x n V k b l I D s J. apply (in_view (get_item (u "_name")) _ _ k b V) in I. destruct I as [E|[E|[]]].
  - assert (G : get_item (u "_name") b = Raise KeyErr) by congruence. rewrite (defines_nothing b l G D) in J. destruct J.
  - assert (G : get_item (u "_name") b = Ret (VStr n)) by congruence. rewrite (defines_is b l n G D) in J. destruct J as [<-|[]]. reflexivity.
Qed.
Definition defines_names := defines_one_of _ _ _ two_view.
Definition defines_cell := defines_one_of _ _ _ one_view.
Lemma two_child : c_child (ddl1 "two" "atom") = [(this_dictionary, PC this_dictionary None); (u "atom", PC (u "atom") None)].
Proof. vm_compute. reflexivity. Qed.
Lemma one_child : c_child (ddl1 "one" "cell") = [(this_dictionary, PC this_dictionary None); (u "cell", PC (u "cell") None)].
Proof. vm_compute. reflexivity. Qed.
Lemma two_this : match c_get this_dictionary (ddl1 "two" "atom") with Ret b => get_item (u "_name") b | Raise _ => Raise StarErr end = Raise KeyErr.
Proof. vm_compute. reflexivity. Qed.
Lemma ckeys_view : ckeys (ddl1 "one" "cell") = [this_dictionary; u "cell"] /\ ckeys (ddl2 "more" "_atom.x") = [u "more"; u "_atom.x"] /\
  c_vis (ddl1 "one" "cell") = [this_dictionary; u "cell"] /\ c_lower (ddl1 "one" "cell") = [this_dictionary; u "cell"].
Proof. vm_compute. repeat split. Qed.

(** Two DDL1 dictionaries that define different items cannot be merged in any mode,
    because both have a block on_this_dictionary: the block is not skipped, and
    replacing it is refused in a file held to the CIF standard
    (CifFile_module.nw 4362-4364). *)
Theorem C106_ddl1_refuted : exists base n, CWF base /\ CWF n /\ nothing_twice n base /\ forall mode c', merge_dic mode base [n] <> (c', Ret tt).
Proof.
  exists (ddl1 "one" "cell"), (ddl1 "two" "atom"). split; [exact (proj1 one_ok)|]. split; [exact (proj1 two_ok)|]. split.
  - intros k b k' b' l l' I1 I2 D1 D2 s J1 J2. pose proof (defines_names k b l I1 D1 s J1) as E1. pose proof (defines_cell k' b' l' I2 D2 s J2) as E2.
    rewrite E1 in E2. vm_compute in E2. discriminate E2.
  - intros mode c'. pose proof two_this as K. destruct (c_get this_dictionary (ddl1 "two" "atom")) as [b|e] eqn:G; [|discriminate K].
    destruct ckeys_view as (_ & _ & Vi & Lo).
    apply (C106_ddl1_fails mode (ddl1 "one" "cell") (ddl1 "two" "atom") [] b c').
    + vm_compute. discriminate.
    + split; [rewrite Lo; now left|]. split; [rewrite Vi; now left|]. exists this_dictionary. rewrite one_child. now left.
    + exact (proj1 two_ok).
    + intros k e I. rewrite two_child in I. destruct I as [[= _ <-]|[[= _ <-]|[]]]; reflexivity.
    + rewrite two_child. now left.
    + exact G.
    + exact K.
Qed.
(** Of two DDL2 dictionaries only the main blocks are merged, without an error: the
    definitions of the second one, which are save frames, are lost
    (CifFile_module.nw 4365-4371). *)
Theorem C106_ddl2_refuted : exists base n c' x, CWF base /\ CWF n /\ merge_dic MReplace base [n] = (c', Ret tt) /\ In x (ckeys n) /\ ~ In x (ckeys c').
Proof.
  exists (ddl2 "core" "_cell.a"), (ddl2 "more" "_atom.x"), (fst (merge_dic MReplace (ddl2 "core" "_cell.a") [ddl2 "more" "_atom.x"])), (u "_atom.x").
  split; [exact (proj1 core_ok)|]. split; [exact (proj1 more_ok)|].
  assert (V : snd (merge_dic MReplace (ddl2 "core" "_cell.a") [ddl2 "more" "_atom.x"]) = Ret tt /\
    ckeys (fst (merge_dic MReplace (ddl2 "core" "_cell.a") [ddl2 "more" "_atom.x"])) = [u "core"; u "_cell.a"]) by (vm_compute; split; reflexivity).
  destruct V as (V1 & V2). destruct (merge_dic MReplace (ddl2 "core" "_cell.a") [ddl2 "more" "_atom.x"]) as [c' r]. cbn [fst snd] in *. rewrite V1, V2.
  split; [reflexivity|]. split; [rewrite (proj1 (proj2 ckeys_view)); right; now left|]. intros [C|[C|[]]]; vm_compute in C; discriminate C.
Qed.
(** Where the first dictionary has several data blocks and no on_this_dictionary, the
    others are ignored without an error (CifFile_module.nw 4362-4365). *)
Theorem C106_several_refuted : exists base n c' x, CWF base /\ CWF n /\ merge_dic MReplace base [n] = (c', Ret tt) /\ In x (ckeys n) /\ ~ In x (ckeys c').
Proof.
  exists (nested Dictionary), (ddl2 "more" "_atom.x"), (nested Dictionary), (u "_atom.x"). split; [exact (proj1 (nested_ok Dictionary))|]. split; [exact (proj1 more_ok)|].
  assert (V : c_has this_dictionary (nested Dictionary) = false /\ length (c_vis (nested Dictionary)) = 4 /\ ckeys (nested Dictionary) = [u "top"; u "cat"; u "item"; u "other"]) by (vm_compute; repeat split).
  destruct V as (V1 & V2 & V3).
  split; [apply C106_several; [exact V1|rewrite V2; discriminate]|]. split; [rewrite (proj1 (proj2 ckeys_view)); right; now left|].
  rewrite V3. intros [C|[C|[C|[C|[]]]]]; vm_compute in C; discriminate C.
Qed.

(** ** Cases *)
Definition more_definitions : coll := run_cops [KNew (u "atom") (item "_name" "_atom") true None] (new_coll StdCif Instance false).
Lemma more_view : names_view more_definitions = [(u "atom", Ret (VStr (u "_atom")))] /\ c_child more_definitions = [(u "atom", PC (u "atom") None)] /\
  map (fun kb : str * block => (fst kb, b_keys (snd kb))) (c_dict more_definitions) = [(u "atom", [u "_name"])].
Proof. vm_compute. repeat split. Qed.
Example C106_meets_disjoint : exists c', merge_dic MStrict (ddl1 "one" "cell") [more_definitions] = (c', Ret tt) /\ In (u "atom") (ckeys c').
Proof.
  destruct more_view as (Mv & Mc & Mk).
  assert (Wm : CWF more_definitions /\ visible_ok more_definitions).
  { refine (run_cops_ok _ _ (proj1 (new_coll_CWF _ _ _)) (proj2 (new_coll_CWF _ _ _)) _). cbn [reachable_ops]. split; [|exact I].
    split; [intros q E; discriminate E|vm_compute; intros X; discriminate X]. }
  assert (Dm : forall k b, In (k, b) (c_dict more_definitions) -> get_item (u "_name") b = Ret (VStr (u "_atom"))).
  { intros k b I. apply (in_names _ _ k b Mv) in I. destruct I as [E|[]]. congruence. }
  destruct (C106_disjoint MStrict more_definitions (ddl1 "one" "cell")) as (c' & E & _ & _ & K & _).
  - exact (proj1 one_ok).
  - exact (proj2 one_ok).
  - exact (proj1 Wm).
  - intros k e I. rewrite Mc in I. destruct I as [[= <- <-]|[]]. reflexivity.
  - intros l1 k e p l2 El P. exfalso. assert (I : In (k, e) (c_child more_definitions)) by (rewrite El; apply in_elt).
    rewrite Mc in I. destruct I as [[= _ <-]|[]]. discriminate P.
  - unfold c_has. rewrite (proj1 (proj2 (proj2 ckeys_view))). reflexivity.
  - intros k I J. assert (I' : In k (map fst (c_child more_definitions))) by (eapply Permutation_in; [symmetry; apply (cw_table _ (proj1 Wm))|exact I]).
    rewrite Mc in I'. rewrite (proj1 ckeys_view) in J. destruct I' as [<-|[]]. destruct J as [C|[C|[]]]; vm_compute in C; discriminate C.
  - intros k e I. rewrite Mc in I. destruct I as [[= <- <-]|[]]. split; [split; [vm_compute; lia|reflexivity]|discriminate].
  - intros k b I _ x J. apply (in_view b_keys _ _ k b Mk) in I. destruct I as [E|[]]. injection E as _ E. rewrite <- E in J. destruct J as [<-|[]]. vm_compute. lia.
  - intros k b I. exists [u "_atom"]. apply (defines_some _ (VStr (u "_atom"))); [exact (Dm k b I)|constructor|discriminate].
  - intros k b I. apply (in_names _ _ k b one_view) in I. destruct I as [E|[E|[]]].
    + exists []. apply defines_none. congruence.
    + exists [u "_cell"]. apply (defines_some _ (VStr (u "_cell"))); [congruence|constructor|discriminate].
  - intros k b k' b' l l' I1 I2 D1 D2 s J1 J2. rewrite (defines_is b l _ (Dm k b I1) D1) in J1. pose proof (defines_cell k' b' l' I2 D2 s J2) as E2.
    destruct J1 as [<-|[]]. vm_compute in E2. discriminate E2.
  - exists c'. split; [exact E|]. apply K. right. eapply Permutation_in; [apply (cw_table _ (proj1 Wm))|]. rewrite Mc. now left.
Qed.
Definition bonds : coll := run_cops [KNew (u "bond") (item "_name" "_bond") true None] (new_coll StdCif Instance false).
Lemma single_addable : forall c x n, CWF c -> names_view c = [(x, Ret (VStr n))] -> c_child c = [(x, PC x None)] ->
  map (fun kb : str * block => (fst kb, b_keys (snd kb))) (c_dict c) = [(x, [u "_name"])] ->
  lower x = x -> x <> u "" -> length x <= 75 -> fix_name true x = x -> addable StdCif c.
Proof.
  intros c x n W Vn Vc Vk L N Le Fx. constructor.
  - exact W.
  - intros k e I. rewrite Vc in I. destruct I as [[= <- <-]|[]]. repeat split; assumption.
  - intros k e I. rewrite Vc in I. destruct I as [[= <- <-]|[]]. reflexivity.
  - intros k b I _ y J. apply (in_view b_keys _ _ k b Vk) in I. destruct I as [E|[]]. injection E as _ E. rewrite <- E in J. destruct J as [<-|[]]. vm_compute. lia.
  - intros k b I. apply (in_names _ _ k b Vn) in I. destruct I as [E|[]]. exists [n]. apply (defines_some _ (VStr n)); [congruence|constructor|discriminate].
Qed.
Lemma apart_views : forall a b va vb, names_view a = va -> names_view b = vb ->
  (forall k o k' o', In (k, o) va -> In (k', o') vb -> k <> k') ->
  (forall k o k' o', In (k, o) va -> In (k', o') vb -> (exists n, o = Ret (VStr n)) \/ o = Raise KeyErr) ->
  (forall k o k' o', In (k, o) va -> In (k', o') vb -> (exists n, o' = Ret (VStr n)) \/ o' = Raise KeyErr) ->
  (forall k o k' o' n, In (k, o) va -> In (k', o') vb -> o = Ret (VStr n) -> o' <> Ret (VStr n)) -> apart a b.
Proof.
  intros a b va vb Va Vb H1 H2 H3 H4. split.
  - intros k I J. unfold ckeys in I, J. apply in_map_iff in I as ((k1, x) & E1 & I). apply in_map_iff in J as ((k2, y) & E2 & J). cbn [fst] in *. subst.
    exact (H1 _ _ _ _ (in_names _ _ _ _ eq_refl I) (in_names _ _ _ _ eq_refl J) eq_refl).
  - intros k x k' y l l' I J D D' s Is Js. pose proof (in_names _ _ _ _ Va I) as I2. pose proof (in_names _ _ _ _ Vb J) as J2.
    destruct (H2 _ _ _ _ I2 J2) as [(n & E)|E]; [|rewrite (defines_nothing _ _ E D) in Is; destruct Is].
    destruct (H3 _ _ _ _ I2 J2) as [(n' & E')|E']; [|rewrite (defines_nothing _ _ E' D') in Js; destruct Js].
    rewrite (defines_is _ _ _ E D) in Is. rewrite (defines_is _ _ _ E' D') in Js. destruct Is as [<-|[]], Js as [<-|[]].
    exact (H4 _ _ _ _ n' I2 J2 E E').
Qed.
Lemma bonds_view : names_view bonds = [(u "bond", Ret (VStr (u "_bond")))] /\ c_child bonds = [(u "bond", PC (u "bond") None)] /\
  map (fun kb : str * block => (fst kb, b_keys (snd kb))) (c_dict bonds) = [(u "bond", [u "_name"])].
Proof. vm_compute. repeat split. Qed.
Ltac views := intros; repeat match goal with
  | H : In _ (_ :: _) |- _ => destruct H as [H|H]; [injection H as <- <-|]
  | H : In _ [] |- _ => destruct H end.
Lemma more_wf : CWF more_definitions.
Proof.
  refine (proj1 (run_cops_ok _ _ (proj1 (new_coll_CWF _ _ _)) (proj2 (new_coll_CWF _ _ _)) _)). cbn [reachable_ops]. split; [|exact I].
  split; [intros q E; discriminate E|vm_compute; intros X; discriminate X].
Qed.
Lemma bonds_wf : CWF bonds.
Proof.
  refine (proj1 (run_cops_ok _ _ (proj1 (new_coll_CWF _ _ _)) (proj2 (new_coll_CWF _ _ _)) _)). cbn [reachable_ops]. split; [|exact I].
  split; [intros q E; discriminate E|vm_compute; intros X; discriminate X].
Qed.
Example C106_meets_many : exists c', merge_dic MReplace (ddl1 "one" "cell") [more_definitions; bonds] = (c', Ret tt) /\ In (u "bond") (ckeys c').
Proof.
  destruct more_view as (Mv & Mc & Mk), bonds_view as (Bv & Bc & Bk).
  destruct (C106_many MReplace (ddl1 "one" "cell") [more_definitions; bonds]) as (c' & E & _ & K & _).
  - unfold c_has. rewrite (proj1 (proj2 (proj2 ckeys_view))). reflexivity.
  - exact (proj1 one_ok).
  - exact (proj2 one_ok).
  - intros k b I. apply (in_names _ _ k b one_view) in I. destruct I as [E|[E|[]]].
    + exists []. apply defines_none. congruence.
    + exists [u "_cell"]. apply (defines_some _ (VStr (u "_cell"))); [congruence|constructor|discriminate].
  - assert (S : c_std (ddl1 "one" "cell") = StdCif) by (vm_compute; reflexivity). rewrite S.
    constructor; [|constructor; [|constructor]].
    + apply (single_addable _ (u "atom") (u "_atom") more_wf Mv Mc Mk); try reflexivity; [discriminate|vm_compute; lia].
    + apply (single_addable _ (u "bond") (u "_bond") bonds_wf Bv Bc Bk); try reflexivity; [discriminate|vm_compute; lia].
  - assert (P1 : apart (ddl1 "one" "cell") more_definitions) by (apply (apart_views _ _ _ _ one_view Mv); views; try discriminate; eauto; congruence).
    assert (P2 : apart (ddl1 "one" "cell") bonds) by (apply (apart_views _ _ _ _ one_view Bv); views; try discriminate; eauto; congruence).
    assert (P3 : apart more_definitions bonds) by (apply (apart_views _ _ _ _ Mv Bv); views; try discriminate; eauto; congruence).
    exact (FOP_cons _ (Forall_cons _ P1 (Forall_cons _ P2 (Forall_nil _))) (FOP_cons _ (Forall_cons _ P3 (Forall_nil _)) (FOP_cons _ (Forall_nil _) (FOP_nil _)))).
  - exists c'. split; [exact E|]. apply K. right. exists bonds. split; [right; now left|].
    eapply Permutation_in; [apply (cw_table _ bonds_wf)|]. rewrite Bc. now left.
Qed.
Definition locked (k v : string) : block := fst (set_item (u k) (VStr (u v)) (empty_block false 0 false)).
Definition locked_main : coll := run_cops [KNew (u "core") (locked "_dictionary.title" "core") true None] (new_coll StdCif Instance false).
Lemma locked_view : match c_get (u "core") locked_main with Ret b => Ret (b_over b, b_keys b) | Raise e => Raise e end = Ret (false, [u "_dictionary.title"]) /\
  c_vis locked_main = [u "core"] /\ c_vis (ddl2 "more" "_atom.x") = [u "more"] /\
  c_get (u "more") (ddl2 "more" "_atom.x") = Ret (fst (setmaxnamelength 75 (item "_dictionary.title" "more"))).
Proof. vm_compute. repeat split. Qed.
Example C106_meets_read : forall c', merge_dic MReplace locked_main [ddl2 "more" "_atom.x"] <> (c', Ret tt).
Proof.
  intros c'. destruct locked_view as (G & V & Vn & Gn). destruct (c_get (u "core") locked_main) as [b|e] eqn:E; [|discriminate G].
  injection G as O K. eapply (C106_read_fails MReplace locked_main (u "core") (ddl2 "more" "_atom.x") (u "more") [] b _ (u "_dictionary.title")).
  - discriminate.
  - unfold c_has. rewrite V. reflexivity.
  - exact V.
  - exact Vn.
  - exact E.
  - exact O.
  - exact Gn.
  - apply (StarBlockProofs2.run_op_wf (OMaxName 75)); [apply set_item_wf, StarBlockProofs2.empty_wf|exact I].
  - rewrite K. now left.
  - vm_compute. now left.
  - discriminate.
Qed.

Definition dicmerge_theorems := (C106_disjoint, C106_many, C106_ddl1_fails, C106_one_block, C106_several, C106_read_fails, C106_kept, C106_ddl1_refuted, C106_ddl2_refuted, C106_several_refuted).
Print Assumptions dicmerge_theorems.
