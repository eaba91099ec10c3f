(** C72-C76: the methods that edit a DDLm dictionary. *)
From Coq Require Import String Ascii List NArith Bool Lia Arith.
From Verif Require Import PyBase PyFacts StarBlockModel ValidateModel CollectionModel TreeModel TreeProofs EditModel EditSpec EditProofs EditProofs2 EditProofs3 EditProofs4 EditProofs5.
Import ListNotations.
Open Scope string_scope.
Open Scope list_scope.
Open Scope nat_scope.

(** A small dictionary. *)
Definition att (l : list (string * string)) : table := map (fun a => (u (fst a), VStr (u (snd a)))) l.
Definition category (id parent class : string) : table :=
  att [("_definition.id", id); ("_definition.scope", "Category"); ("_definition.class", class); ("_name.category_id", parent); ("_name.object_id", id)].
Definition item (id cat obj : string) : table :=
  att [("_definition.id", id); ("_definition.class", "Datum"); ("_name.category_id", cat); ("_name.object_id", obj)].
Definition frames : list (string * table) :=
  [("head", category "HEAD" "DICT" "Head"); ("cat", category "CAT" "HEAD" "Loop"); ("sub", category "SUB" "CAT" "Loop");
   ("_cat.one", item "_CAT.one" "CAT" "one"); ("_sub.two", item "_SUB.two" "SUB" "two")].
Definition dictionary (l : list (string * table)) : ddic :=
  DDic ((u "dict", (att [("_dictionary.title", "DICT")], false)) :: map (fun a => (u (fst a), (snd a, false))) l)
       ((u "dict", PC (u "DICT") None) :: map (fun a => (u (fst a), PC (u (fst a)) (Some (u "dict")))) l)
       (map (fun a => (u (fst a), u (fst a))) l)
       [].
Definition sample := dictionary frames.
Ltac member_of I := repeat (destruct I as [I|I]; [|]); try contradiction.
Ltac orderly := constructor;
  [ repeat constructor; vm_compute; intuition discriminate | repeat constructor; vm_compute; intuition discriminate
  | intros k; reflexivity
  | intros k I; repeat (destruct I as [<-|I]; [vm_compute; reflexivity|]); contradiction I
  | repeat constructor; vm_compute; intuition discriminate
  | intros k b I; repeat (destruct I as [[= <- <-]|I]; [split; [vm_compute; reflexivity|vm_compute; tauto]|]); contradiction I ].
Lemma sample_order : in_order sample.
Proof. orderly. Qed.
Ltac said := split; [vm_compute; tauto|eexists; vm_compute; tauto].

(** * C72: renaming a definition *)
(** An item gets its new name, and nothing else changes. *)
Theorem C72_works : forall x newobj cat d t, in_order d -> says d (lower x) t ->
  tget (u "_dictionary.title") t = None -> tget (u "_name.category_id") t = Some (VStr cat) ->
  ~ In (lower (u "_" ++ cat ++ u "." ++ newobj)) (map fst (k_blocks d)) ->
  exists d' t', change_name x newobj d = (d', Ret (u "_" ++ cat ++ u "." ++ newobj)) /\ in_order d' /\ locked d'
    /\ changed [(u "_definition.id", VStr (u "_" ++ cat ++ u "." ++ newobj)); (u "_name.object_id", VStr newobj)] t t'
    /\ (forall k s, says d' k s <-> k = lower (u "_" ++ cat ++ u "." ++ newobj) /\ s = t'
                                    \/ k <> lower (u "_" ++ cat ++ u "." ++ newobj) /\ k <> lower x /\ says d k s)
    /\ (forall k p, within d' k p <-> k = lower (u "_" ++ cat ++ u "." ++ newobj) /\ within d (lower x) p
          \/ k <> lower (u "_" ++ cat ++ u "." ++ newobj) /\ k <> lower x
             /\ exists q, within d k q /\ p = follow (lower x) (lower (u "_" ++ cat ++ u "." ++ newobj)) q).
Proof. intros x newobj cat d t O S. exact (change_name_works x newobj cat d t O S). Qed.
(** A name that is taken is refused, and no definition changes. *)
Theorem C72_taken : forall x newobj cat d t, in_order d -> says d (lower x) t ->
  tget (u "_dictionary.title") t = None -> tget (u "_name.category_id") t = Some (VStr cat) ->
  In (lower (u "_" ++ cat ++ u "." ++ newobj)) (map fst (k_blocks d)) ->
  exists d', change_name x newobj d = (d', Raise StarErr) /\ in_order d' /\ (forall k s, says d' k s <-> says d k s) /\ forall k p, within d' k p <-> within d k p.
Proof. intros x newobj cat d t O S. exact (change_name_taken x newobj cat d t O S). Qed.
(** Definitions still say their own ids. *)
Theorem C72_ids : forall x newobj cat d t d' r, in_order d -> says d (lower x) t ->
  tget (u "_dictionary.title") t = None -> tget (u "_name.category_id") t = Some (VStr cat) ->
  change_name x newobj d = (d', r) -> ids_agree d -> ids_agree d'.
Proof.
  intros x newobj cat d t d' r O S Ht Hc E A. destruct (in_dec (list_eq_dec N.eq_dec) (lower (u "_" ++ cat ++ u "." ++ newobj)) (map fst (k_blocks d))) as [I|I].
  - destruct (C72_taken x newobj cat d t O S Ht Hc I) as (d1 & E1 & _ & H & _). rewrite E1 in E. injection E as <- <-. intros k s Sk. apply A, H, Sk.
  - destruct (C72_works x newobj cat d t O S Ht Hc I) as (d1 & t1 & E1 & _ & _ & (Ch & _) & H & _). rewrite E1 in E. injection E as <- <-.
    intros k s Sk. apply H in Sk as [(-> & ->)|(_ & _ & Sk)]; [|now apply A]. eexists. split; [apply Ch; now left|reflexivity].
Qed.
(** After a refusal the definitions can be overwritten by assignment. *)
Theorem C72_unlocked_refuted : exists d x newobj d', in_order d /\ locked d /\ change_name x newobj d = (d', Raise StarErr) /\ ~ locked d'.
Proof.
  exists sample, (u "_cat.one"), (u "one"). eexists. split; [exact sample_order|]. split.
  { intros k I. repeat (destruct I as [<-|I]; [eexists; vm_compute; tauto|]). contradiction I. }
  split; [vm_compute; reflexivity|]. intros L. destruct (L (u "cat")) as (t & I); [vm_compute; tauto|].
  vm_compute in I. intuition discriminate.
Qed.
(** A change of capitals only is refused. *)
Theorem C72_capitals_refuted : exists d x newobj t d', in_order d /\ says d x t /\ tget (u "_name.object_id") t = Some (VStr (u "one"))
  /\ newobj = u "One" /\ change_name x newobj d = (d', Raise StarErr).
Proof. exists sample, (u "_cat.one"), (u "One"), (item "_CAT.one" "CAT" "one"). eexists. split; [exact sample_order|]. split; [said|]. split; [reflexivity|]. split; [reflexivity|]. vm_compute; reflexivity. Qed.
(** In a dictionary whose frames have other names than their definitions, it is
    accepted, and the definition is lost from the dictionary's keys. *)
Theorem C72_lost_refuted : exists d x newobj d' r, k_has x d = true /\ k_keys d = [x] /\ change_name x newobj d = (d', Ret r) /\ k_keys d' = [].
Proof.
  exists (DDic (k_blocks (dictionary [("cat.one", item "_cat.one" "cat" "one")])) (k_child (dictionary [("cat.one", item "_cat.one" "cat" "one")])) [(u "_cat.one", u "cat.one")] []),
    (u "_cat.one"), (u "One"). do 2 eexists. split; [reflexivity|]. split; [reflexivity|]. split; [vm_compute; reflexivity|]. vm_compute; reflexivity.
Qed.
(** The table from category and object to name keeps the old name. *)
Theorem C72_lookup_refuted : exists d x newobj d' r, in_order d /\ change_name x newobj d = (d', Ret r) /\
  name_by_cat_obj (u "cat") (u "one") d = Ret (u "_cat.one") /\ name_by_cat_obj (u "cat") (u "one") d' = Ret (u "_cat.one") /\ k_has (u "_cat.one") d' = false /\
  name_by_cat_obj (u "cat") newobj d' = Raise KeyErr.
Proof.
  exists (DDic (k_blocks sample) (k_child sample) (k_ids sample) [(u "cat", u "one", u "_cat.one")]), (u "_cat.one"), (u "new"). do 2 eexists.
  split; [destruct sample_order; constructor; assumption|]. split; [vm_compute; reflexivity|]. repeat (split; [vm_compute; reflexivity|]). vm_compute; reflexivity.
Qed.
Theorem C72_dictionary_fails x newobj d t o : in_order d -> In (lower x, (t, o)) (k_blocks d) -> tmem (u "_dictionary.title") t = true ->
  ~ In (lower x) (map fst (k_ids d)) -> snd (change_name x newobj d) = Raise KeyErr.
Proof.
  intros O I Ht N. apply (blk_in d O) in I. unfold change_name. rewrite (table_ok d O x t o I). cbn [look].
    change a_title with (u "_dictionary.title"). rewrite Ht. destruct (flags_step true d O) as (d1 & E1 & O1 & B1 & C1 & D1 & F1). rewrite E1. cbn [then_].
    unfold k_rename. rewrite F1. apply dmem_not in N. unfold dmem in N. destruct (dget str_eqb (lower x) (k_ids d)); [discriminate|reflexivity].
Qed.
(** The block of the dictionary itself, which the documentation says can be renamed,
    is not among the definitions, and so never is. *)
Theorem C72_dictionary_refuted : exists x d t o, in_order d /\ In (lower x, (t, o)) (k_blocks d) /\ tmem (u "_dictionary.title") t = true /\ forall newobj, snd (change_name x newobj d) = Raise KeyErr.
Proof.
  exists (u "Dict"), sample, (att [("_dictionary.title", "DICT")]), false. split; [exact sample_order|]. split; [now left|]. split; [reflexivity|].
  intros newobj. apply (C72_dictionary_fails (u "Dict") newobj sample (att [("_dictionary.title", "DICT")]) false); [exact sample_order|now left|reflexivity|vm_compute; intuition discriminate].
Qed.
Lemma sample_says k t : says sample k t -> In (k, t) (map (fun a => (u (fst a), snd a)) frames).
Proof.
  intros (I & o & J). destruct J as [[= <- _ _]|J]; [vm_compute in I; intuition discriminate|].
  change (In (k, (t, o)) (map (fun a : string * table => (u (fst a), (snd a, false))) frames)) in J.
  apply in_map_iff in J as ((a, b) & [= <- <- <-] & J). apply in_map_iff. now exists (a, b).
Qed.
Lemma sample_ids : ids_agree sample.
Proof.
  intros k t S. apply sample_says in S. repeat (destruct S as [[= <- <-]|S]; [eexists; split; vm_compute; reflexivity|]). contradiction S.
Qed.
Lemma sample_texts : texts sample.
Proof.
  intros k t v S E. apply sample_says in S. repeat (destruct S as [[= <- <-]|S]; [vm_compute in E; injection E as <-; eauto|]). contradiction S.
Qed.
Example C72_meets : exists x newobj cat d t, in_order d /\ says d (lower x) t /\ tget (u "_dictionary.title") t = None /\ tget (u "_name.category_id") t = Some (VStr cat)
  /\ ~ In (lower (u "_" ++ cat ++ u "." ++ newobj)) (map fst (k_blocks d)) /\ ids_agree d.
Proof.
  exists (u "_Cat.One"), (u "Three"), (u "CAT"), sample, (item "_CAT.one" "CAT" "one"). split; [exact sample_order|]. split; [said|]. split; [reflexivity|]. split; [reflexivity|].
  split; [vm_compute; intuition discriminate|exact sample_ids].
Qed.

(** * C73: moving a definition to another category *)
(** An item moves: it has the new category and a new name, and is in the frame of
    the new category. *)
Theorem C73_item : forall x cat c obj d t, in_order d -> says d (lower x) t -> tget (u "_name.category_id") t = Some (VStr c) ->
  lower c <> lower cat -> In (lower cat) (map fst (k_ids d)) -> itemdef t -> tget (u "_name.object_id") t = Some (VStr obj) ->
  ~ In (lower (u "_" ++ cat ++ u "." ++ obj)) (map fst (k_blocks d)) -> lower x <> lower cat ->
  exists d' t', change_category x cat d = (d', Ret (u "_" ++ cat ++ u "." ++ obj)) /\ in_order d' /\ locked d'
    /\ changed [(u "_definition.id", VStr (u "_" ++ cat ++ u "." ++ obj)); (u "_name.category_id", VStr cat)] t t'
    /\ (forall k s, says d' k s <-> k = lower (u "_" ++ cat ++ u "." ++ obj) /\ s = t'
                                    \/ k <> lower (u "_" ++ cat ++ u "." ++ obj) /\ k <> lower x /\ says d k s)
    /\ (forall k p, within d' k p <-> k = lower (u "_" ++ cat ++ u "." ++ obj) /\ p = Some (lower cat)
          \/ k <> lower (u "_" ++ cat ++ u "." ++ obj) /\ k <> lower x
             /\ exists q, within d k q /\ p = follow (lower x) (lower (u "_" ++ cat ++ u "." ++ obj)) q).
Proof. intros x cat c obj d t O S Hc Nc Hcat. exact (change_category_item x cat c obj d t O S Hc Nc Hcat). Qed.
(** A category moves, and keeps its name. *)
Theorem C73_category : forall x cat c d t, in_order d -> says d (lower x) t -> tget (u "_name.category_id") t = Some (VStr c) ->
  lower c <> lower cat -> In (lower cat) (map fst (k_ids d)) -> ~ itemdef t -> (exists v, tget (u "_name.object_id") t = Some v) ->
  exists d' t', change_category x cat d = (d', Ret x) /\ in_order d' /\ locked d'
    /\ changed [(u "_name.category_id", VStr cat)] t t'
    /\ (forall k s, says d' k s <-> k = lower x /\ s = t' \/ k <> lower x /\ says d k s)
    /\ (forall k p, within d' k p <-> k = lower x /\ p = Some (lower cat) \/ k <> lower x /\ within d k p).
Proof. intros x cat c d t O S Hc Nc Hcat. exact (change_category_category x cat c d t O S Hc Nc Hcat). Qed.
(** To the category that it is in, or to one that is not there: nothing happens. *)
Theorem C73_nothing : forall x cat c d t, in_order d -> says d (lower x) t -> tget (u "_name.category_id") t = Some (VStr c) ->
  lower c = lower cat \/ ~ In (lower cat) (map fst (k_ids d)) -> change_category x cat d = (d, Ret x).
Proof.
  intros x cat c d t O S Hc H. apply says_iff in S as (I & o & E); [|exact O]. unfold change_category. rewrite (table_ok d O x t o E). cbn [look].
  change a_category with (u "_name.category_id"). rewrite Hc. destruct (str_eqb_spec (lower c) (lower cat)) as [|N]; [reflexivity|].
  destruct H as [H|H]; [contradiction|]. unfold k_has. apply dmem_not in H. rewrite H. reflexivity.
Qed.
(** If the new name is taken the move fails with the definition half changed. *)
Theorem C73_atomic_refuted : exists d x cat t d' t', in_order d /\ ids_agree d /\ says d x t /\ change_category x cat d = (d', Raise StarErr)
  /\ says d' x t' /\ tget (u "_definition.id") t' <> tget (u "_definition.id") t /\ tget (u "_name.category_id") t' <> tget (u "_name.category_id") t /\ ~ ids_agree d' /\ ~ locked d'.
Proof.
  exists (dictionary (("_sub.one", item "_SUB.one" "SUB" "one") :: frames)), (u "_cat.one"), (u "SUB"), (item "_CAT.one" "CAT" "one"). do 2 eexists.
  split; [orderly|]. split.
  { intros k t (I & o & J). destruct J as [[= <- _ _]|J]; [vm_compute in I; intuition discriminate|].
    repeat (destruct J as [[= <- <- _]|J]; [eexists; split; vm_compute; reflexivity|]). contradiction J. }
  split; [said|]. split; [vm_compute; reflexivity|]. split; [split; [vm_compute; tauto|eexists; vm_compute; do 5 right; left; reflexivity]|].
  split; [vm_compute; intros X; discriminate X|]. split; [vm_compute; intros X; discriminate X|]. split.
  - intros A. destruct (A (u "_cat.one") (att [("_definition.id", "_SUB.one"); ("_definition.class", "Datum"); ("_name.category_id", "SUB"); ("_name.object_id", "one")])) as (s & E & L); [said|].
    vm_compute in E. injection E as <-. vm_compute in L. discriminate L.
  - intros L. destruct (L (u "cat")) as (t & I); [vm_compute; tauto|]. vm_compute in I. intuition discriminate.
Qed.
Example C73_meets : exists x y cat d t s, in_order d /\ says d (lower x) t /\ tget (u "_name.category_id") t = Some (VStr (u "CAT")) /\ lower (u "CAT") <> lower cat
  /\ In (lower cat) (map fst (k_ids d)) /\ itemdef t /\ tget (u "_name.object_id") t = Some (VStr (u "one"))
  /\ ~ In (lower (u "_" ++ cat ++ u "." ++ u "one")) (map fst (k_blocks d)) /\ lower x <> lower cat /\ says d (lower y) s /\ tget (u "_name.category_id") s = Some (VStr (u "CAT")) /\ ~ itemdef s.
Proof.
  exists (u "_CAT.one"), (u "SUB"), (u "HEAD"), sample, (item "_CAT.one" "CAT" "one"), (category "SUB" "CAT" "Loop").
  split; [exact sample_order|]. split; [said|]. split; [reflexivity|]. split; [vm_compute; intros X; discriminate X|]. split; [vm_compute; tauto|]. split; [left; reflexivity|]. split; [reflexivity|].
  split; [vm_compute; intuition discriminate|]. split; [vm_compute; intros X; discriminate X|]. split; [said|]. split; [reflexivity|].
  intros [X|X]; vm_compute in X; discriminate X.
Qed.

(** * C74: renaming a category *)
(** The category gets its new name, its members name it as their category, its
    items get new ids, and everything else stays.  But the keys of the items are
    their new ids without the underscore ([moved]). *)
Theorem C74_works_partial : forall old new d t, in_order d -> texts d -> says d (lower old) t -> lower old <> [] -> new <> [] ->
  ~ In (lower new) (map fst (k_blocks d)) -> ~ member d (lower old) (lower old) -> objects d (lower old) ->
  (forall a s o, member d (lower old) a -> says d a s -> tget (u "_name.object_id") s = Some (VStr o) ->
     ~ In (lower (new ++ u "." ++ o)) (map fst (k_blocks d)) /\ lower (new ++ u "." ++ o) <> lower new) ->
  exists d' t', change_category_name old new d = (d', Ret tt) /\ in_order d' /\ locked d'
    /\ changed [(u "_definition.id", VStr new); (u "_name.object_id", VStr new)] t t' /\ says d' (lower new) t'
    /\ (forall a s, member d (lower old) a -> says d a s -> exists k s', moved new a s k s' /\ says d' k s')
    /\ (forall k s, k <> lower old -> ~ member d (lower old) k -> says d k s -> says d' k s)
    /\ (forall k s, says d' k s -> k = lower new /\ s = t' \/ (exists a s0, member d (lower old) a /\ says d a s0 /\ moved new a s0 k s)
         \/ k <> lower old /\ ~ member d (lower old) k /\ says d k s).
Proof. intros old new d t. exact (change_category_name_works old new d t). Qed.
(** No definition names the old category any more. *)
Theorem C74_members : forall old new d t d' r, in_order d -> texts d -> says d (lower old) t -> lower old <> [] -> new <> [] ->
  ~ In (lower new) (map fst (k_blocks d)) -> ~ member d (lower old) (lower old) -> objects d (lower old) ->
  (forall a s o, member d (lower old) a -> says d a s -> tget (u "_name.object_id") s = Some (VStr o) ->
     ~ In (lower (new ++ u "." ++ o)) (map fst (k_blocks d)) /\ lower (new ++ u "." ++ o) <> lower new) ->
  lower new <> lower old -> change_category_name old new d = (d', r) -> forall a, ~ member d' (lower old) a.
Proof.
  intros old new d t d' r O T S No Nn Hn Hs Ho Hf Nq E a (s & c & Sa & Ea & L).
  destruct (change_category_name_works old new d t O T S No Nn Hn Hs Ho Hf) as (d1 & t' & E1 & O1 & _ & (Ch & Cu) & _ & _ & _ & Back).
  rewrite E1 in E. injection E as <- <-. destruct (Back a s Sa) as [(-> & ->)|[(b & s0 & Mb & Sb & Mv)|(N1 & N2 & S1)]].
  - rewrite Cu in Ea by (vm_compute; intuition discriminate). apply Hs. exists t, c. auto.
  - inversion Mv as [o t0 Hi Hob (C1 & C2) Ek Et|t0 Hi (C1 & C2) Ek Et]; subst.
    + rewrite (C1 (u "_name.category_id") (VStr new)) in Ea by now left. injection Ea as <-. now apply Nq.
    + rewrite (C1 (u "_name.category_id") (VStr new)) in Ea by now left. injection Ea as <-. now apply Nq.
  - apply N2. exists s, c. auto.
Qed.
(** After the renaming no item of the category is found by its id. *)
Theorem C74_lost : forall old new d t d' r a s o, in_order d -> texts d -> says d (lower old) t -> lower old <> [] -> new <> [] ->
  ~ In (lower new) (map fst (k_blocks d)) -> ~ member d (lower old) (lower old) -> objects d (lower old) ->
  (forall a s o, member d (lower old) a -> says d a s -> tget (u "_name.object_id") s = Some (VStr o) ->
     ~ In (lower (new ++ u "." ++ o)) (map fst (k_blocks d)) /\ lower (new ++ u "." ++ o) <> lower new) ->
  change_category_name old new d = (d', r) -> member d (lower old) a -> says d a s -> itemdef s -> tget (u "_name.object_id") s = Some (VStr o) -> ~ ids_agree d'.
Proof.
  intros old new d t d' r a s o O T S No Nn Hn Hs Ho Hf E Ma Sa Hi Hob A.
  destruct (change_category_name_works old new d t O T S No Nn Hn Hs Ho Hf) as (d1 & t' & E1 & O1 & _ & _ & _ & Fw & _).
  rewrite E1 in E. injection E as <- <-. destruct (Fw a s Ma Sa) as (k & s' & Mv & Sk).
  inversion Mv as [o0 t0 _ Hob0 (C1 & C2) Ek Et|t0 Hn0 _ Ek Et]; subst; [|contradiction].
  destruct (A _ _ Sk) as (i & Ei & L). rewrite (C1 (u "_definition.id") (VStr (u "_" ++ new ++ u "." ++ o0))) in Ei by (right; now left). injection Ei as <-.
  apply (f_equal (@length N)) in L. unfold lower in L. rewrite !map_length in L. cbn [u app length map] in L. rewrite app_length in L. cbn in L. rewrite app_length in L. cbn in L. lia.
Qed.
Theorem C74_ids_refuted : exists d old new d', in_order d /\ ids_agree d /\ k_has (u "_cat.one") d = true /\ change_category_name old new d = (d', Ret tt)
  /\ k_has (u "_new.one") d' = false /\ k_has (u "new.one") d' = true /\ k_item (u "new.one") (u "_definition.id") d' = Ret (VStr (u "_New.one")).
Proof.
  exists sample, (u "CAT"), (u "New"). eexists. split; [exact sample_order|]. split; [exact sample_ids|]. split; [reflexivity|]. split; [vm_compute; reflexivity|].
  repeat (split; [vm_compute; reflexivity|]). vm_compute; reflexivity.
Qed.
(** A refused renaming leaves the dictionary unlocked. *)
Theorem C74_unlocked_refuted : exists d old new d', in_order d /\ locked d /\ change_category_name old new d = (d', Raise KeyErr) /\ ~ locked d'.
Proof.
  exists sample, (u "cat"), (u "sub"). eexists. split; [exact sample_order|]. split.
  { intros k I. repeat (destruct I as [<-|I]; [eexists; vm_compute; tauto|]). contradiction I. }
  split; [vm_compute; reflexivity|]. intros L. destruct (L (u "cat")) as (t & I); [vm_compute; tauto|].
  vm_compute in I. intuition discriminate.
Qed.
Lemma sample_member k : member sample (u "cat") k -> k = u "sub" \/ k = u "_cat.one".
Proof.
  intros (t & s & S & E & L). apply sample_says in S. repeat (destruct S as [[= <- <-]|S]; [vm_compute in E; injection E as <-; vm_compute in L; first [discriminate L|vm_compute; auto]|]). contradiction S.
Qed.
Example C74_meets : exists old new d t a s o, in_order d /\ texts d /\ says d (lower old) t /\ lower old <> [] /\ new <> [] /\
  ~ In (lower new) (map fst (k_blocks d)) /\ ~ member d (lower old) (lower old) /\ objects d (lower old) /\
  (forall a s o, member d (lower old) a -> says d a s -> tget (u "_name.object_id") s = Some (VStr o) ->
     ~ In (lower (new ++ u "." ++ o)) (map fst (k_blocks d)) /\ lower (new ++ u "." ++ o) <> lower new) /\
  member d (lower old) a /\ says d a s /\ itemdef s /\ tget (u "_name.object_id") s = Some (VStr o).
Proof.
  exists (u "CAT"), (u "New"), sample, (category "CAT" "HEAD" "Loop"), (u "_cat.one"), (item "_CAT.one" "CAT" "one"), (u "one").
  split; [exact sample_order|]. split; [exact sample_texts|]. split; [said|]. split; [discriminate|]. split; [discriminate|]. split; [vm_compute; intuition discriminate|].
  split; [intros M; apply sample_member in M as [M|M]; vm_compute in M; discriminate M|]. split.
  { split.
    - intros a t M S _. apply sample_says in S. repeat (destruct S as [[= <- <-]|S]; [eexists; vm_compute; reflexivity|]). contradiction S.
    - intros a b ta tb oa ob Ma Mb Sa Sb Ia Ib Ea Eb L. apply sample_member in Ma, Mb. destruct Ma as [->| ->], Mb as [->| ->]; try reflexivity; exfalso.
      + apply sample_says in Sa. repeat (destruct Sa as [Sa|Sa]; [first [discriminate Sa|injection Sa as <-; destruct Ia as [X|X]; vm_compute in X; discriminate X]|]). contradiction Sa.
      + apply sample_says in Sb. repeat (destruct Sb as [Sb|Sb]; [first [discriminate Sb|injection Sb as <-; destruct Ib as [X|X]; vm_compute in X; discriminate X]|]). contradiction Sb. }
  split.
  { intros a s o _ S E. apply sample_says in S. repeat (destruct S as [[= <- <-]|S]; [vm_compute in E; injection E as <-; split; [vm_compute; intuition discriminate|vm_compute; intros X; discriminate X]|]). contradiction S. }
  split; [exists (item "_CAT.one" "CAT" "one"), (u "CAT"); split; [said|split; reflexivity]|]. split; [said|]. split; [left; reflexivity|reflexivity].
Qed.

(** * C75: new definitions *)
(** A new category has the attributes it should have, the rest is as before. *)
Theorem C75_category : forall n parent loop dangler cat d, in_order d -> (exists r, within d r None) -> length n <= 75 -> ~ In 32%N n -> ~ In 9%N n ->
  ~ In (lower n) (map fst (k_blocks d)) -> chosen d parent dangler cat ->
  exists d' t' root, add_category n parent loop dangler d = (d', Ret n) /\ in_order d' /\ locked d'
    /\ changed [(u "_name.object_id", VStr n); (u "_name.category_id", cat); (u "_definition.id", VStr n); (u "_definition.scope", VStr (u "Category"));
                (u "_definition.class", VStr (u (if loop then "Loop" else "Set"))); (u "_description.text", VStr (u "No definition provided"))] [] t'
    /\ (forall k s, says d' k s <-> k = lower n /\ s = t' \/ says d k s)
    /\ within d root None /\ (forall k p, within d' k p <-> k = lower n /\ p = Some root \/ within d k p).
Proof. exact add_category_works. Qed.
(** A new item likewise, if its object has no capitals; but the dictionary is left
    unlocked. *)
Theorem C75_item_partial : forall name obj cat text dangler d, in_order d -> (exists r, within d r None) -> names_object name obj -> lower obj = obj ->
  length (u "_" ++ lower cat ++ u "." ++ obj) <= 75 -> ~ In (u "_" ++ lower cat ++ u "." ++ obj) (map fst (k_blocks d)) -> dangler = true \/ catdef d (lower cat) ->
  exists d' t' root, add_definition name cat text dangler d = (d', Ret (u "_" ++ lower cat ++ u "." ++ obj)) /\ in_order d'
    /\ changed [(u "_definition.id", VStr (u "_" ++ lower cat ++ u "." ++ obj)); (u "_name.object_id", VStr obj); (u "_name.category_id", VStr cat);
                (u "_definition.class", VStr (u "Datum")); (u "_description.text", VStr text)] [] t'
    /\ (forall k s, says d' k s <-> k = u "_" ++ lower cat ++ u "." ++ obj /\ s = t' \/ says d k s)
    /\ within d root None /\ (forall k p, within d' k p <-> k = u "_" ++ lower cat ++ u "." ++ obj /\ p = Some root \/ within d k p)
    /\ (forall k s o, says d' k s -> In (k, (s, o)) (k_blocks d') -> o = true).
Proof. exact add_definition_works. Qed.
(** A name that is there is refused, and the dictionary is as it was. *)
Theorem C75_category_taken : forall n parent loop dangler d, In (lower n) (map fst (k_ids d)) -> add_category n parent loop dangler d = (d, Raise CifErr).
Proof. intros n parent loop dangler d I. unfold add_category, k_has. apply dmem_iff in I. now rewrite I. Qed.
(** An item cannot be put in what is not a category; the definitions stay. *)
Theorem C75_item_refused : forall name cat text d, in_order d ->
  (~ In (lower cat) (map fst (k_ids d)) \/ exists t v, says d (lower cat) t /\ tget (u "_definition.scope") t = Some v /\ v <> VStr (u "Category")) ->
  exists d', add_definition name cat text false d = (d', Raise CifErr) /\ in_order d' /\ (forall k s, says d' k s <-> says d k s) /\ forall k p, within d' k p <-> within d k p.
Proof.
  intros name cat text d O H. unfold add_definition. destruct (flags_step true d O) as (d1 & E1 & O1 & B1 & C1 & D1 & F1). rewrite E1. cbn [then_].
  assert (E : (if negb (k_has cat d1) then Ret true else obind (k_item cat a_scope d1) (fun v => Ret (negb (veq_text (Some v) (u "Category"))))) = Ret true).
  { unfold k_has. fold (isid d1 (lower cat)). rewrite D1. destruct H as [H|(t & v & S & T & N)].
    - apply dmem_not in H. unfold isid. rewrite H. reflexivity.
    - apply says_iff in S as (I & o & E); [|exact O]. rewrite I. cbn [negb]. rewrite (item_ok d1 O1 cat a_scope t true v); [|now rewrite B1, E, I|exact T].
      cbn [obind]. destruct (veq_text (Some v) (u "Category")) eqn:V; [|reflexivity]. apply veq_text_spec in V. congruence. }
  rewrite E. cbn [look]. exists d1. split; [reflexivity|]. split; [exact O1|]. split.
  - intros k s. rewrite (says_iff d1 O1), (says_iff d O), D1, B1. split; intros (A & o & B); (split; [exact A|]).
    + destruct (blk d k) as [(t0, o0)|]; [|discriminate]. injection B as <- _. eauto.
    + rewrite B. eauto.
  - intros k p. rewrite (within_chd d1 k p O1), (within_chd d k p O), C1. reflexivity.
Qed.
(** An object with capitals: the new definition is not in the dictionary. *)
Theorem C75_capitals_refuted : exists d name cat text d' r, in_order d /\ catdef d (lower cat) /\ add_definition name cat text false d = (d', Ret r)
  /\ k_has name d' = false /\ k_has r d' = false /\ ~ in_order d'.
Proof.
  exists sample, (u "_cat.New"), (u "cat"), (u "text"). do 2 eexists. split; [exact sample_order|]. split; [exists (category "CAT" "HEAD" "Loop"); split; [said|reflexivity]|].
  split; [vm_compute; reflexivity|]. split; [vm_compute; reflexivity|]. split; [vm_compute; reflexivity|].
  intros O. destruct (io_own _ O (u "_cat.New") (u "_cat.new")) as (X & _); [vm_compute; tauto|]. vm_compute in X. discriminate X.
Qed.
(** A parent that is not there: an error, but the half-made category stays. *)
Theorem C75_parent_refuted : exists d n p d', in_order d /\ k_has p d = false /\ add_category n (Some p) true false d = (d', Raise KeyErr) /\ k_has n d' = true
  /\ k_item n (u "_definition.id") d' = Raise KeyErr /\ ~ locked d'.
Proof.
  exists sample, (u "new"), (u "gone"). eexists. split; [exact sample_order|]. split; [reflexivity|]. split; [vm_compute; reflexivity|]. split; [vm_compute; reflexivity|].
  split; [vm_compute; reflexivity|]. intros L. destruct (L (u "cat")) as (t & I); [vm_compute; tauto|]. vm_compute in I. intuition discriminate.
Qed.
(** Without a Head category, the top data block cannot be the parent as the
    documentation says: it has no object id. *)
Theorem C75_no_head_refuted : exists d n d', in_order d /\ (exists r, within d r None) /\ add_category n None true false d = (d', Raise KeyErr) /\ k_has n d' = true.
Proof.
  exists (dictionary [("cat", category "CAT" "DICT" "Loop")]), (u "new"). eexists. split; [orderly|]. split; [exists (u "dict"), (u "DICT"); now left|].
  split; vm_compute; reflexivity.
Qed.
(** A name with a space is put under a frame of another name, and is not found by it. *)
Theorem C75_space_refuted : exists d n d', in_order d /\ add_category n (Some (u "HEAD")) true false d = (d', Ret n) /\ k_has n d' = true /\ ~ in_order d'.
Proof.
  exists sample, (u "new one"). eexists. split; [exact sample_order|]. split; [vm_compute; reflexivity|]. split; [vm_compute; reflexivity|].
  intros O. destruct (io_own _ O (u "new one") (u "new_one")) as (X & _); [vm_compute; tauto|]. vm_compute in X. discriminate X.
Qed.
Example C75_meets : exists n name obj cat d, in_order d /\ (exists r, within d r None) /\ length n <= 75 /\ ~ In 32%N n /\ ~ In 9%N n /\ ~ In (lower n) (map fst (k_blocks d))
  /\ chosen d None false (VStr (u "HEAD")) /\ chosen d (Some (u "Cat")) false (VStr (u "CAT")) /\ names_object name obj /\ lower obj = obj
  /\ length (u "_" ++ lower cat ++ u "." ++ obj) <= 75 /\ ~ In (u "_" ++ lower cat ++ u "." ++ obj) (map fst (k_blocks d)) /\ catdef d (lower cat).
Proof.
  exists (u "New"), (u "_cat._three_"), (u "three"), (u "CAT"), sample. split; [exact sample_order|]. split; [exists (u "dict"), (u "DICT"); now left|]. split; [vm_compute; lia|].
  split; [vm_compute; intuition discriminate|]. split; [vm_compute; intuition discriminate|]. split; [vm_compute; intuition discriminate|]. split.
  { exists (u "head"), (category "HEAD" "DICT" "Head"). split; [|split; [said|reflexivity]]. intros k s S. apply sample_says in S.
    repeat (destruct S as [[= <- <-]|S]; [split; intros X; vm_compute in X; first [discriminate X|vm_compute; reflexivity]|]). contradiction S. }
  split; [exists (category "CAT" "HEAD" "Loop"); split; [said|reflexivity]|]. split.
  { exists (u "_cat"), (u "_"), (u "_"). split; [right; reflexivity|]. split; [repeat constructor|]. split; [repeat constructor|]. split; [vm_compute; intuition discriminate|]. split; vm_compute; intros X; discriminate X. }
  split; [reflexivity|]. split; [vm_compute; lia|]. split; [vm_compute; intuition discriminate|]. exists (category "CAT" "HEAD" "Loop"). split; [said|reflexivity].
Qed.

(** * C76: removing definitions *)
(** Exactly the definition goes, and what is below it if it is a category. *)
Theorem C76_works : forall h n x d, in_order d -> texts d -> flat d -> named d -> well_founded_cats d h -> h (lower x) < n ->
  exists d', remove_definition n x d = (d', Ret tt) /\ in_order d' /\ forall k s, says d' k s <-> says d k s /\ ~ goes d (lower x) k.
Proof. intros h n x d O T F N W H. destruct (remove_ok h n x d O T F N W H) as (d' & E & O' & _ & Fw). eauto. Qed.
(** A category below itself is removed for ever. *)
Theorem C76_cycle_refuted : exists d x, in_order d /\ texts d /\ flat d /\ named d /\ forall n, snd (remove_definition n x d) = Raise OutOfFuel.
Proof.
  set (d := dictionary [("cat", category "CAT" "CAT" "Loop")]). exists d, (u "cat").
  assert (Q : forall k t, says d k t -> k = u "cat" /\ t = category "CAT" "CAT" "Loop").
  { intros k t (I & o & J). destruct I as [<-|[]]. destruct J as [J|[J|[]]]; [discriminate J|]. injection J as <- _. now split. }
  split; [orderly|]. split; [intros k t v S E; apply Q in S as (_ & ->); vm_compute in E; injection E as <-; eauto|]. split.
  { intros k x I (i & J). destruct I as [<-|[]]. destruct J as [J|[J|[]]]; discriminate J. }
  split; [split; [intros c t S _; apply Q in S as (_ & ->); eexists; vm_compute; reflexivity|vm_compute; intuition discriminate]|].
  induction n as [|n IH]; [reflexivity|]. cbn [remove_definition].
  change (k_has (u "cat") d) with true. cbn [negb]. change (k_table (u "cat") d) with (Ret (category "CAT" "CAT" "Loop")). cbn [look].
  change (is_category (category "CAT" "CAT" "Loop")) with true. cbn [look].
  assert (K : k_children (u "cat") d = Ret [u "cat"]) by (vm_compute; reflexivity). rewrite K. cbn [look each].
  destruct (remove_definition n (u "cat") d) as (d1, r). cbn [snd] in IH. subst r. reflexivity.
Qed.
Definition sample_height (k : str) : nat := if str_eqb k (u "cat") then 2 else if str_eqb k (u "sub") then 1 else if str_eqb k (u "head") then 3 else if str_eqb k (u "dict") then 4 else 0.
Example C76_meets : exists h n x d k, in_order d /\ texts d /\ flat d /\ named d /\ well_founded_cats d h /\ h (lower x) < n /\ goes d (lower x) k /\ k <> lower x.
Proof.
  exists sample_height, 5, (u "CAT"), sample, (u "_sub.two"). split; [exact sample_order|]. split; [exact sample_texts|]. split.
  { intros k x I (i & J). repeat (destruct J as [J|J]; [first [discriminate J|injection J as _ _ E; subst k; vm_compute in I; intuition discriminate]|]). contradiction J. }
  split. { split; [intros c t S _; apply sample_says in S; repeat (destruct S as [[= <- <-]|S]; [eexists; vm_compute; reflexivity|]); contradiction S|vm_compute; intuition discriminate]. }
  split.
  { intros c a _ (t & s & S & E & L). apply sample_says in S. repeat (destruct S as [[= <- <-]|S]; [vm_compute in E; injection E as <-; subst c; vm_compute; try lia|]). contradiction S. }
  split; [vm_compute; lia|]. split; [|vm_compute; intros X; discriminate X].
  apply (g_deep _ _ (u "sub")).
  - exists (category "CAT" "HEAD" "Loop"). split; [said|reflexivity].
  - exists (category "SUB" "CAT" "Loop"), (u "CAT"). split; [said|]. split; reflexivity.
  - apply (g_deep _ _ (u "_sub.two")); [exists (category "SUB" "CAT" "Loop"); split; [said|reflexivity]| |constructor].
    exists (item "_SUB.two" "SUB" "two"), (u "SUB"). split; [said|]. split; reflexivity.
Qed.

Definition edit_theorems := (C72_works, C72_taken, C72_ids, C72_unlocked_refuted, C72_capitals_refuted, C72_lost_refuted, C72_lookup_refuted, C72_dictionary_refuted, C72_dictionary_fails,
  C73_item, C73_category, C73_nothing, C73_atomic_refuted, C74_works_partial, C74_members, C74_lost, C74_ids_refuted, C74_unlocked_refuted,
  C75_category, C75_item_partial, C75_category_taken, C75_item_refused, C75_capitals_refuted, C75_parent_refuted, C75_no_head_refuted, C75_space_refuted, C76_works, C76_cycle_refuted).
Print Assumptions edit_theorems.
