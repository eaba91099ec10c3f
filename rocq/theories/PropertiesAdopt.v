(** C124: taking over a category of another dictionary. *)
From Coq Require Import String Ascii List NArith PeanoNat Bool Lia.
From Verif Require Import PyBase PyFacts StarBlockModel ValidateModel TreeModel ImportModel CollectionModel AdoptModel AdoptSpec AdoptProofs AdoptProofs2.
Import ListNotations.
Open Scope string_scope.
Open Scope list_scope.
Open Scope nat_scope.

(** The category and all its members are there afterwards; what the dictionary had
    itself is kept, if that is allowed; nothing else changes. *)
Theorem C124_taken src d cat on_dupl on_miss ct : takeable src -> orderly d -> lower cat <> [] -> source_of src (lower cat) ct -> ~ in_category cat ct ->
  (forall a, taken src cat a -> d_has d a = true /\ on_dupl = u "Ignore" \/ d_has d a = false /\ ~ In a (map fst (d_blocks d))) ->
  exists d', get_one_cat src cat on_dupl on_miss d = (d', Ret tt)
    /\ (forall x, d_has d x = true -> d_get d' x = d_get d x)
    /\ (forall x t, d_has d x = false -> taken src cat (lower x) -> source_of src (lower x) t -> d_get d' x = Ret t)
    /\ (forall x, ~ taken src cat (lower x) -> d_get d' x = d_get d x).
Proof. apply one_cat_taken. Qed.
(** With Exit, anything that is there already is an error; if it is the category itself
    the dictionary is unchanged. *)
Theorem C124_exit src d cat on_miss ct : takeable src -> orderly d -> lower cat <> [] -> source_of src (lower cat) ct -> ~ in_category cat ct ->
  (forall a, taken src cat a -> d_has d a = true \/ d_has d a = false /\ ~ In a (map fst (d_blocks d))) -> (exists a, taken src cat a /\ d_has d a = true) ->
  snd (get_one_cat src cat (u "Exit") on_miss d) = Raise CifErr /\ (d_has d cat = true -> fst (get_one_cat src cat (u "Exit") on_miss d) = d).
Proof. apply one_cat_exit. Qed.
(** A category that the other dictionary does not have. *)
Theorem C124_missing src d cat on_dupl on_miss : orderly d -> d_has src cat = false ->
  (on_miss = u "Ignore" -> get_one_cat src cat on_dupl on_miss d = (d, Ret tt)) /\ (on_miss <> u "Ignore" -> get_one_cat src cat on_dupl on_miss d = (d, Raise CifErr)).
Proof. intros Od H. rewrite (missing_cat src d cat on_dupl on_miss Od H). split; [intros ->; now rewrite str_eqb_refl|]. intros N. now rewrite (eqb_neq str_eqb str_eqb_spec _ _ N). Qed.

Definition txt (s : string) : value := VStr (u s).
Definition a_cat (id parent : string) : table := [(u "_definition.id", txt id); (u "_definition.scope", txt "Category"); (u "_name.category_id", txt parent)].
Definition an_item (id cat : string) : table := [(u "_definition.id", txt id); (u "_name.category_id", txt cat)].
Definition atoms : dic := mkDic [(u "dic", []); (u "atom", a_cat "ATOM" "MAIN"); (u "atom.x", an_item "_atom.x" "atom"); (u "atom.y", an_item "_Atom.y" "ATOM"); (u "cell.a", an_item "_cell.a" "cell")] [u "dic"]
  [(u "atom", u "atom"); (u "_atom.x", u "atom.x"); (u "_atom.y", u "atom.y"); (u "_cell.a", u "cell.a")].
Definition other : dic := mkDic [(u "new", []); (u "atom.x", an_item "_atom.x" "own")] [u "new"] [(u "_atom.x", u "atom.x")].
Definition one_block (k : string) (t : table) : dic := mkDic [(u "new", []); (u k, t)] [u "new"] [(u k, u k)].
Lemma atoms_orderly : orderly atoms.
Proof.
  constructor.
  - intros k b H. repeat (destruct H as [H|H]; [injection H as <- _; reflexivity|]). destruct H.
  - intros k b H. repeat (destruct H as [H|H]; [injection H as _ <-; eexists; split; [vm_compute; reflexivity|discriminate]|]). destruct H.
  - vm_compute. repeat (constructor; [intros K; repeat (destruct K as [K|K]; [discriminate|]); destruct K|]). constructor.
Qed.
Lemma atoms_source : forall a, In a (map fst (d_ids atoms)) -> exists t, source_of atoms a t.
Proof.
  assert (forall k b t i, In (u k, u b) (d_ids atoms) -> dget str_eqb (lower (u b)) (d_blocks atoms) = Some t -> tget (u "_definition.id") t = Some (VStr i) -> lower i = u k -> length (u k) <= 75 -> forallb (fun c => negb (N.eqb c 32) && negb (N.eqb c 9)) (u k) = true -> source_of atoms (u k) t) as G.
  { intros k b t i H1 H2 H3 H4 H5 H6. split; [now exists (u b)|]. split; [now exists i|]. split; [exact H5|]. intros c Hc. rewrite forallb_forall in H6. specialize (H6 c Hc). apply andb_prop in H6. destruct H6 as [K1 K2]. split; intros ->; discriminate. }
  intros a [<-|[<-|[<-|[<-|[]]]]]; eexists.
  - apply (G "atom" "atom" (a_cat "ATOM" "MAIN") (u "ATOM")); [now left|reflexivity|reflexivity|reflexivity|cbn; lia|reflexivity].
  - apply (G "_atom.x" "atom.x" (an_item "_atom.x" "atom") (u "_atom.x")); [right; now left|reflexivity|reflexivity|reflexivity|cbn; lia|reflexivity].
  - apply (G "_atom.y" "atom.y" (an_item "_Atom.y" "ATOM") (u "_Atom.y")); [right; right; now left|reflexivity|reflexivity|reflexivity|cbn; lia|reflexivity].
  - apply (G "_cell.a" "cell.a" (an_item "_cell.a" "cell") (u "_cell.a")); [right; right; right; now left|reflexivity|reflexivity|reflexivity|cbn; lia|reflexivity].
Qed.
Lemma atoms_takeable : takeable atoms.
Proof.
  constructor; [apply atoms_orderly|apply atoms_source|]. intros a t v ((b & H & Hb) & _) E. repeat (destruct H as [H|H]; [injection H as <- <-; vm_compute in Hb; injection Hb as <-; vm_compute in E; injection E as <-; eexists; reflexivity|]). destruct H.
Qed.
Lemma other_orderly : orderly other.
Proof.
  constructor.
  - intros k b [H|[]]. now injection H as <- _.
  - intros k b [H|[]]. injection H as _ <-. eexists. split; [vm_compute; reflexivity|discriminate].
  - repeat constructor. intros [].
Qed.
Example C124_meets : takeable atoms /\ orderly other /\ source_of atoms (lower (u "ATOM")) (a_cat "ATOM" "MAIN") /\ ~ in_category (u "ATOM") (a_cat "ATOM" "MAIN")
  /\ (forall a, taken atoms (u "ATOM") a -> d_has other a = true /\ u "Ignore" = u "Ignore" \/ d_has other a = false /\ ~ In a (map fst (d_blocks other)))
  /\ exists d', get_one_cat atoms (u "ATOM") (u "Ignore") (u "Exit") other = (d', Ret tt) /\ d_get d' (u "_atom.y") = Ret (an_item "_Atom.y" "ATOM") /\ d_get d' (u "_ATOM.X") = Ret (an_item "_atom.x" "own") /\ d_get d' (u "_cell.a") = Raise KeyErr.
Proof.
  split; [apply atoms_takeable|]. split; [apply other_orderly|]. split; [|split; [|split]].
  - destruct (atoms_source (u "atom") (or_introl eq_refl)) as (t & S). pose proof (source_get atoms (u "ATOM") t atoms_orderly S) as E. vm_compute in E. injection E as <-. exact S.
  - intros (c & E & H). vm_compute in E. injection E as <-. vm_compute in H. discriminate.
  - intros a T. apply (taken_key atoms (u "ATOM") a atoms_orderly) in T. destruct T as [<-|[<-|[<-|[<-|[]]]]]; [right|left|right|right]; (split; [vm_compute; reflexivity|]); try reflexivity; intros K; vm_compute in K; repeat (destruct K as [K|K]; [discriminate|]); destruct K.
  - eexists. split; [vm_compute; reflexivity|]. repeat split; vm_compute; reflexivity.
Qed.
(** Taking the same category twice, where what is there already is to be ignored: the
    id is filed with its capitals, is not found again, and the second block is refused. *)
Theorem C124_twice_refuted : exists src d d1, takeable src /\ orderly d /\ get_one_cat src (u "ATOM") (u "Ignore") (u "Ignore") d = (d1, Ret tt) /\ snd (get_one_cat src (u "ATOM") (u "Ignore") (u "Ignore") d1) = Raise StarErr.
Proof. eexists atoms, other, _. split; [apply atoms_takeable|]. split; [apply other_orderly|]. split; vm_compute; reflexivity. Qed.
(** Replacing a definition whose block is named by its id: no error, but the definition
    is still the old one. *)
Theorem C124_replace_refuted : exists d d', get_one_cat atoms (u "ATOM") (u "Replace") (u "Exit") d = (d', Ret tt) /\ d_get atoms (u "_atom.x") = Ret (an_item "_atom.x" "atom")
  /\ d_get d (u "_atom.x") = Ret (an_item "_atom.x" "old") /\ d_get d' (u "_atom.x") = Ret (an_item "_atom.x" "old").
Proof. eexists (one_block "_atom.x" (an_item "_atom.x" "old")), _. split; [vm_compute; reflexivity|]. repeat split; vm_compute; reflexivity. Qed.
(** After an error because of a member that is there already, the category and the
    members before it have been added. *)
Theorem C124_exit_refuted : exists d d', get_one_cat atoms (u "ATOM") (u "Exit") (u "Exit") d = (d', Raise CifErr) /\ d_get d (u "_atom.x") = Raise KeyErr /\ d_get d' (u "_atom.x") = Ret (an_item "_atom.x" "atom").
Proof. eexists (one_block "_atom.y" (an_item "_atom.y" "old")), _. repeat split; vm_compute; reflexivity. Qed.
Definition nested : dic := mkDic [(u "dic", []); (u "atom", a_cat "ATOM" "MAIN"); (u "aniso", a_cat "ANISO" "ATOM")] [u "dic"] [(u "atom", u "atom"); (u "aniso", u "aniso")].
(** A dictionary with a category in a category can not be taken as a whole: the inner
    one is taken as a member first, and then refused. *)
Theorem C124_whole_refuted : exists src, orderly src /\ snd (get_whole_dict src (u "Ignore") (u "Ignore") (mkDic [(u "new", [])] [u "new"] [])) = Raise StarErr.
Proof.
  exists nested. split; [|vm_compute; reflexivity]. constructor.
  - intros k b H. repeat (destruct H as [H|H]; [injection H as <- _; reflexivity|]). destruct H.
  - intros k b H. repeat (destruct H as [H|H]; [injection H as _ <-; eexists; split; [vm_compute; reflexivity|discriminate]|]). destruct H.
  - vm_compute. repeat (constructor; [intros K; repeat (destruct K as [K|K]; [discriminate|]); destruct K|]). constructor.
Qed.
(** A category with the categories below it is never taken, as DDLm has no attribute
    _category.parent_id. *)
Theorem C124_children_refuted : snd (with_children atoms (u "ATOM") (u "Ignore") (u "Ignore") other) = Raise KeyErr /\ snd (get_one_cat atoms (u "ATOM") (u "Ignore") (u "Ignore") other) = Ret tt.
Proof. split; vm_compute; reflexivity. Qed.

Definition adopt_theorems := (C124_taken, C124_exit, C124_missing, C124_twice_refuted, C124_replace_refuted, C124_exit_refuted, C124_whole_refuted, C124_children_refuted).
Print Assumptions adopt_theorems.
