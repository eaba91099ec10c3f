(** C122, C123: the definitions of a dictionary with imports, and how imports are
    resolved. *)
From Coq Require Import String Ascii List NArith PeanoNat Bool Lia.
From Verif Require Import PyBase PyFacts StarBlockModel ValidateModel TreeModel TreeSpec TreeProofs TreeProofs2 ImportModel ImportSpec ImportProofs PropertiesTree PropertiesImport ObtainModel ObtainSpec ObtainProofs ObtainProofs2.
Import ListNotations.
Open Scope string_scope.
Open Scope list_scope.
Open Scope nat_scope.

(** ** C122 *)
(** Own definitions win; otherwise the first import that has it below its head. *)
Theorem C122_lookup depth n d key t : proper depth n d -> (s_get depth n d key = Ret t <-> finds d key t).
Proof. apply get_finds. Qed.
Theorem C122_absent depth n d key : proper depth n d -> (s_get depth n d key = Raise KeyErr <-> forall t, ~ finds d key t).
Proof. apply get_absent. Qed.
Theorem C122_one_answer depth n d key t t' : proper depth n d -> finds d key t -> finds d key t' -> t = t'.
Proof. intros P H H'. apply (C122_lookup depth n d key t P) in H. apply (C122_lookup depth n d key t' P) in H'. congruence. Qed.

Definition item (cat obj : string) : table := [(u "_definition.id", text ("_" ++ cat ++ "." ++ obj)); (u "_name.category_id", text cat); (u "_name.object_id", text obj)].
Definition head_def (id dic : string) : table := [(u "_definition.id", text id); (u "_definition.scope", text "Category"); (u "_definition.class", text "Head"); (u "_name.category_id", text dic); (u "_name.object_id", text id)].
Definition main_defs : defs := [(u "main", head_def "MAIN" "M_DIC"); (u "_main.x", item "MAIN" "x")].
Definition sub_defs : defs := [(u "sub", head_def "SUB" "S_DIC"); (u "_sub.x", item "SUB" "x"); (u "_sub.y", item "SUB" "y")].
Definition full_ref (f k : string) (dupl : option str) : gref := mkRef (Some (u f)) (Some (u k)) (Some (u "Full")) None dupl.
Definition contents_ref (f k : string) (miss : option str) : gref := mkRef (Some (u f)) (Some (u k)) None miss None.
Definition as_named (_ f : str) : str := f.
Definition no_files (_ : str) : option raw := None.
Definition put_file (f : string) (w : raw) (files : str -> option raw) : str -> option raw := fun x => if str_eqb x (u f) then Some w else files x.
Definition two_files : str -> option raw := put_file "sub" (mkRaw sub_defs []) (put_file "main" (mkRaw main_defs [(u "main", [full_ref "sub" "SUB" None])]) no_files).
Definition sub_dic : sdic := SDic sub_defs [] [].
Definition main_dic : sdic := SDic main_defs [(u "sub", sub_dic)] [(u "sub", u "SUB")].
Definition height3 (c : str) : nat := if str_eqb c (u "s_dic") || str_eqb c (u "m_dic") then 2 else if str_eqb c (u "sub") || str_eqb c (u "main") then 1 else 0.
Lemma height3_small c : height3 c < 3.
Proof. unfold height3. destruct (str_eqb c (u "s_dic") || str_eqb c (u "m_dic")), (str_eqb c (u "sub") || str_eqb c (u "main")); lia. Qed.
Ltac wf := constructor;
  [apply has_dup_spec; vm_compute; reflexivity
  |intros k t H; repeat (destruct H as [H|H]; [injection H as <- _; reflexivity|]); destruct H
  |intros k t v H; repeat (destruct H as [H|H]; [injection H as _ <-; cbn; intros E; injection E as <-; eexists; reflexivity|]); destruct H].
Ltac acy := intros a c (t & H & Hc) (t' & H' & Hs);
  repeat (destruct H as [H|H]; [injection H as <- <-; destruct Hc as [(s & Es & El)|[Es _]]; [|discriminate Es]; cbn in Es; injection Es as <-; rewrite <- El;
    repeat (destruct H' as [H'|H']; [first [discriminate H'|injection H' as <-; first [discriminate Hs|vm_compute; lia]]|]); destruct H'|]); destruct H.
Lemma sub_proper n : proper 3 (S n) sub_dic.
Proof. apply (p_dic 3 n sub_dic height3); [wf|acy|exact height3_small|constructor|intros uri one []|intros uri head []]. Qed.
Lemma main_proper n : proper 3 (S (S n)) main_dic.
Proof.
  apply (p_dic 3 (S n) main_dic height3); [wf|acy|exact height3_small|repeat constructor; intros []|intros uri one [H|[]]; injection H as _ <-; apply sub_proper|].
  intros uri head [H|[]]. injection H as <- <-. exists sub_dic, (head_def "SUB" "S_DIC"), (u "SUB"). split; [now left|]. split; [apply f_own; now left|]. split; [reflexivity|now left].
Qed.
Example C122_meets : load 3 false (u "All") as_named two_files 3 (u "main") = Ret main_dic /\ proper 3 2 main_dic
  /\ finds main_dic (u "_sub.y") (item "SUB" "y") /\ s_get 3 2 main_dic (u "_sub.y") = Ret (item "SUB" "y") /\ s_get 3 2 main_dic (u "_Main.X") = Ret (item "MAIN" "x") /\ s_get 3 2 main_dic (u "_sub.z") = Raise KeyErr.
Proof.
  split; [vm_compute; reflexivity|]. split; [apply main_proper|]. split; [apply (C122_lookup 3 2); [apply main_proper|vm_compute; reflexivity]|]. repeat split; vm_compute; reflexivity.
Qed.
(** A definition is found in whatever case its name is written, unless it is an
    imported one. *)
Theorem C122_case_refuted : exists d k t, proper 3 2 d /\ s_get 3 2 d k = Ret t /\ s_get 3 2 d (u "_Sub.Y") = Raise KeyErr /\ lower (u "_Sub.Y") = k.
Proof. exists main_dic, (u "_sub.y"), (item "SUB" "y"). split; [apply main_proper|]. repeat split; vm_compute; reflexivity. Qed.
Definition three_files : str -> option raw := put_file "top" (mkRaw [(u "top", head_def "TOP" "T_DIC")] [(u "top", [full_ref "main" "MAIN" None])]) two_files.
(** Definitions that an imported dictionary has imported itself are not found, although
    that dictionary finds them; heavy imports bring them. *)
Theorem C122_transitive_refuted : exists one top top' t, load 4 false (u "All") as_named three_files 4 (u "main") = Ret one /\ s_get 4 4 one (u "_sub.y") = Ret t
  /\ load 4 false (u "All") as_named three_files 4 (u "top") = Ret top /\ s_get 4 4 top (u "_sub.y") = Raise KeyErr
  /\ load 4 true (u "All") as_named three_files 4 (u "top") = Ret top' /\ exists t', s_get 4 4 top' (u "_sub.y") = Ret t'.
Proof.
  eexists main_dic, _, _, _. split; [vm_compute; reflexivity|]. split; [vm_compute; reflexivity|]. split; [vm_compute; reflexivity|]. split; [vm_compute; reflexivity|]. split; [vm_compute; reflexivity|]. eexists. vm_compute. reflexivity.
Qed.

(** ** C123 *)
Theorem C123_selected mode w p r : In (p, r) (frames mode w) <-> selected mode w p r.
Proof. apply frames_selected. Qed.
(** Every file that an entry names is read, once, and no other; light imports leave
    the definitions alone. *)
Theorem C123_files depth n heavy resolve fetch l w st : steps depth n heavy resolve fetch l (start w) = Ret st ->
  NoDup (o_read st) /\ (forall x, In x (o_read st) <-> exists p r f, In (p, r) l /\ g_file r = Some f /\ x = resolve f) /\ (heavy = false -> o_defs st = w_defs w).
Proof.
  intros E. destruct (steps_reads depth n heavy resolve fetch l (start w) st E) as ((N & _) & D & X); [split; [constructor|reflexivity]|]. split; [exact N|]. split; [|exact D].
  intros x. rewrite X. split; [intros [[]|H]; exact H|now right].
Qed.
(** Entries are done in their order, and an error in one of them is not passed over. *)
Theorem C123_error depth n heavy resolve fetch l pr l' st st1 e : steps depth n heavy resolve fetch l st = Ret st1 -> step depth n heavy resolve fetch pr st1 = Raise e -> steps depth n heavy resolve fetch (l ++ pr :: l') st = Raise e.
Proof.
  revert st. induction l as [|x l IH]; intros st E K; cbn [app steps] in *; [injection E as ->; now rewrite K|]. destruct (step depth n heavy resolve fetch x st) as [st2|]; [|discriminate]. cbn [obind] in *. now apply IH.
Qed.
(** A definition that is not there: an error, unless the entry says otherwise. *)
Theorem C123_missing depth n heavy resolve fetch p r st f key from : g_file r = Some f -> g_save r = Some key -> at_hand fetch st (resolve f) from -> proper depth n from -> (forall t, ~ finds from key t) ->
  (on_miss r "Exit" -> step depth n heavy resolve fetch (p, r) st = Raise CifErr)
  /\ (~ on_miss r "Exit" -> exists st', step depth n heavy resolve fetch (p, r) st = Ret st' /\ same st st').
Proof.
  intros Ef Ek H P N. pose proof (step_absent depth n heavy resolve fetch p r st f key from Ef Ek H P N) as S. destruct (str_eqb_spec (miss_of r) (u "Exit")) as [M|M]; (split; intros K); first [exact S|contradiction].
Qed.
(** A definition that the dictionary has already: as the entry says, in mode full. *)
Theorem C123_duplicate depth n heavy resolve fetch p r st f key from t : g_file r = Some f -> g_save r = Some key -> at_hand fetch st (resolve f) from -> proper depth n from -> finds from key t ->
  In (lower key) (map fst (o_defs st)) -> asks_mode r "full" ->
  (on_dupl r "Exit" -> step depth n heavy resolve fetch (p, r) st = Raise CifErr)
  /\ (on_dupl r "Ignore" -> exists st', step depth n heavy resolve fetch (p, r) st = Ret st' /\ same st st').
Proof. exact (step_dupl depth n heavy resolve fetch p r st f key from t). Qed.
(** Light imports: attributes are left for later, under the name of the file; a whole
    dictionary is searched from then on, before those that were imported earlier. *)
Theorem C123_light_contents depth n resolve fetch p r st f key from t : g_file r = Some f -> g_save r = Some key -> at_hand fetch st (resolve f) from -> proper depth n from -> finds from key t -> asks_mode r "contents" -> In (lower p) (map fst (o_defs st)) ->
  exists st', step depth n false resolve fetch (p, r) st = Ret st' /\ o_defs st' = o_defs st /\ o_imports st' = o_imports st /\ o_contents st' = o_contents st ++ [(p, f)].
Proof. exact (step_contents depth n resolve fetch p r st f key from t). Qed.
Theorem C123_light_full depth n resolve fetch p r st f key from t pt i m h : g_file r = Some f -> g_save r = Some key -> at_hand fetch st (resolve f) from -> proper depth n from -> finds from key t -> asks_mode r "full" ->
  (In (lower key) (map fst (o_defs st)) -> ~ on_dupl r "Exit" /\ ~ on_dupl r "Ignore") -> dget str_eqb (lower p) (o_defs st) = Some pt ->
  tget (u "_definition.id") t = Some (VStr i) -> tget (u "_name.object_id") pt = Some (VStr m) -> tget (u "_name.object_id") t = Some (VStr h) ->
  exists st', step depth n false resolve fetch (p, r) st = Ret st' /\ o_defs st' = o_defs st /\ o_contents st' = o_contents st /\ o_imports st' = (resolve f, i) :: o_imports st.
Proof. exact (step_full depth n resolve fetch p r st f key from t pt i m h). Qed.
(** Heavy imports of attributes, when they succeed: the own attributes, those of the
    entries, and no other definition is touched. *)
Theorem C123_heavy_contents depth n resolve fetch cache p refs w st pt : steps depth (S n) true resolve fetch (map (pair p) refs) (start w) = Ret st -> (forall r, In r refs -> asks_mode r "contents" /\ plain resolve fetch cache r) -> dget str_eqb (lower p) (w_defs w) = Some pt ->
  (forall k, k <> lower p -> dget str_eqb k (o_defs st) = dget str_eqb k (w_defs w))
  /\ exists pt', dget str_eqb (lower p) (o_defs st) = Some pt'
     /\ forall name, lower name <> u "_import.get" ->
        (forall v, tget name pt = Some v -> tget name pt' = Some v)
        /\ (tget name pt = None -> (forall v, last_gives cache (map as_iref refs) name v -> tget name pt' = Some v)
             /\ ((forall r v, In r (map as_iref refs) -> ~ gives cache r name v) -> tget name pt' = None)).
Proof.
  intros E H D. destruct (heavy_steps depth n resolve fetch cache p refs (start w) st pt E H) as (O & _ & pt' & D' & A); [intros uri d K; discriminate K|exact D|]. split; [exact O|]. exists pt'. split; [exact D'|]. intros name Nn. destruct (A name Nn) as [A1 A2]. split; [intros v Hv; now apply A1|exact A2].
Qed.
(** Then reading the attribute through a light import (C49) gives the same. *)
Theorem C123_heavy_is_light depth n resolve fetch cache p refs w st pt : steps depth (S n) true resolve fetch (map (pair p) refs) (start w) = Ret st -> (forall r, In r refs -> asks_mode r "contents" /\ plain resolve fetch cache r) -> dget str_eqb (lower p) (w_defs w) = Some pt -> cache <> [] ->
  exists pt', dget str_eqb (lower p) (o_defs st) = Some pt'
    /\ forall name, lower name <> u "_import.get" -> dic_getitem 2 (DicBlock pt (Some (map as_iref refs)) cache) name = match tget name pt' with Some v => Ret v | None => Raise KeyErr end.
Proof.
  intros E H D Nc. destruct (heavy_steps depth n resolve fetch cache p refs (start w) st pt E H) as (O & R & pt' & D' & A); [intros uri d K; discriminate K|exact D|]. exists pt'. split; [exact D'|]. intros name Nn. destruct (A name Nn) as [A1 A2].
  assert (ready 2 (DicBlock pt (Some (map as_iref refs)) cache)) as Rd.
  { intros refs' E1 _ r Hr. injection E1 as <-. apply in_map_iff in Hr. destruct Hr as (g & <- & Hg). split; [now apply R|]. intros t (f & dic & k & K1 & K2 & K3 & K4). destruct (H g Hg) as [_ P]. destruct (P f K1) as (own & _ & Co). cbn [b_cache] in K2. rewrite Co in K2. injection K2 as <-. rewrite blocks_get in K4. destruct (dget str_eqb (lower k) own) as [t0|]; [|discriminate]. injection K4 as <-. intros refs' K. discriminate K. }
  destruct (tget name pt) as [v|] eqn:Ev.
  - destruct (A1 v eq_refl) as [-> _]. apply C49_own; [exact Rd|exact Ev].
  - destruct (A2 eq_refl) as [B1 B2]. destruct (last_dec cache (map as_iref refs) name) as [(v & L)|L].
    + rewrite (B1 v L). now apply (C49_last_wins 2 _ (map as_iref refs)).
    + rewrite (B2 L). now apply (C49_absent 2 _ (map as_iref refs)).
Qed.
(** An own attribute that an entry has too: an error with heavy imports. *)
Theorem C123_strict new t k v w : dget str_eqb k t = Some v -> dget str_eqb k new = Some w -> strict_merge new t = Raise StarErr.
Proof. apply merge_fails. Qed.

Definition templates : defs := [(u "one", [(u "_units.code", text "m")]); (u "two", [(u "_type.purpose", text "B")])].
Definition item_x : table := [(u "_definition.id", text "_main.x"); (u "_name.category_id", text "MAIN")].
Definition x_defs : defs := [(u "_main.x", item_x); (u "_main.y", item "MAIN" "y")].
Definition x_refs : list gref := [contents_ref "t" "One" None; contents_ref "t" "three" (Some (u "Ignore")); contents_ref "t" "two" None].
Definition t_fetch (_ : str) : outcome sdic := Ret (SDic templates [] []).
Example C123_meets : exists st, steps 3 2 true (fun f => f) t_fetch (map (pair (u "_main.x")) x_refs) (start (mkRaw x_defs [(u "_main.x", x_refs)])) = Ret st
  /\ (forall r, In r x_refs -> asks_mode r "contents" /\ plain (fun f => f) t_fetch [(u "t", as_blocks templates)] r) /\ dget str_eqb (lower (u "_main.x")) x_defs = Some item_x
  /\ dget str_eqb (u "_main.x") (o_defs st) = Some (item_x ++ [(u "_units.code", text "m"); (u "_type.purpose", text "B")]) /\ o_read st = [u "t"]
  /\ frames (u "All") (mkRaw x_defs [(u "_main.x", x_refs)]) = map (pair (u "_main.x")) x_refs
  /\ at_hand t_fetch (start (mkRaw x_defs [])) (u "t") (SDic templates [] []) /\ on_miss (contents_ref "t" "One" None) "Exit".
Proof.
  eexists. split; [vm_compute; reflexivity|]. split.
  - intros r Hr. split.
    + repeat (destruct Hr as [<-|Hr]; [reflexivity|]). destruct Hr.
    + repeat (destruct Hr as [<-|Hr]; [intros f K; injection K as <-; exists templates; split; reflexivity|]). destruct Hr.
  - repeat split; try (vm_compute; reflexivity). right. split; [intros []|reflexivity].
Qed.
Definition mutual : str -> option raw := put_file "a" (mkRaw main_defs [(u "main", [full_ref "b" "SUB" None])]) (put_file "b" (mkRaw sub_defs [(u "sub", [full_ref "a" "MAIN" None])]) no_files).
(** Dictionaries that import each other are never finished. *)
Theorem C123_mutual_refuted : exists files uri, files uri <> None /\ forall heavy n, load 3 heavy (u "All") as_named files n uri = Raise OutOfFuel.
Proof.
  exists mutual, (u "a"). split; [discriminate|]. intros heavy. assert (forall n, load 3 heavy (u "All") as_named mutual n (u "a") = Raise OutOfFuel /\ load 3 heavy (u "All") as_named mutual n (u "b") = Raise OutOfFuel) as G; [|intros n; apply G].
  induction n as [|n [I1 I2]]; [split; reflexivity|]. split.
  - change (load 3 heavy (u "All") as_named mutual (S n) (u "a")) with (obind (steps 3 (S n) heavy (as_named (u "a")) (load 3 heavy (u "All") as_named mutual n) [(u "main", full_ref "b" "SUB" None)] (start (mkRaw main_defs [(u "main", [full_ref "b" "SUB" None])]))) (fun st => Ret (SDic (o_defs st) (o_cache st) (o_imports st)))).
    cbn [steps]. unfold step, get_dic. cbn [g_file full_ref o_cache start dget]. change (as_named (u "a") (u "b")) with (u "b"). rewrite I2. reflexivity.
  - change (load 3 heavy (u "All") as_named mutual (S n) (u "b")) with (obind (steps 3 (S n) heavy (as_named (u "b")) (load 3 heavy (u "All") as_named mutual n) [(u "sub", full_ref "a" "MAIN" None)] (start (mkRaw sub_defs [(u "sub", [full_ref "a" "MAIN" None])]))) (fun st => Ret (SDic (o_defs st) (o_cache st) (o_imports st)))).
    cbn [steps]. unfold step, get_dic. cbn [g_file full_ref o_cache start dget]. change (as_named (u "b") (u "a")) with (u "a"). rewrite I1. reflexivity.
Qed.
Definition overriding : str -> option raw := put_file "t" (mkRaw templates []) (put_file "main" (mkRaw [(u "_main.x", (u "_units.code", text "km") :: item_x)] [(u "_main.x", [contents_ref "t" "one" None])]) no_files).
(** An attribute that a definition gives itself and imports too: light imports load the
    dictionary, heavy ones (the default) do not. *)
Theorem C123_override_refuted : exists files uri d, load 3 false (u "All") as_named files 3 uri = Ret d /\ load 3 true (u "All") as_named files 3 uri = Raise StarErr.
Proof. exists overriding, (u "main"). eexists. split; vm_compute; reflexivity. Qed.
Definition replaced : str -> option raw := put_file "sub" (mkRaw sub_defs []) (put_file "main" (mkRaw (main_defs ++ [(u "_sub.x", item "MAIN" "own"); (u "sub", item "MAIN" "own")]) [(u "main", [full_ref "sub" "SUB" (Some (u "Replace"))])]) no_files).
(** dupl "Replace" does not replace: with either kind of import the own definition is
    kept. *)
Theorem C123_replace_refuted : exists d d', load 3 true (u "All") as_named replaced 3 (u "main") = Ret d' /\ (exists t, s_get 3 3 d' (u "_sub.x") = Ret t /\ tget (u "_name.object_id") t = Some (text "own"))
  /\ load 3 false (u "All") as_named replaced 3 (u "main") = Ret d /\ s_imports d = [(u "sub", u "SUB")] /\ s_get 3 3 d (u "_sub.x") = Ret (item "MAIN" "own") /\ s_get 3 3 d (u "SUB") = Ret (item "MAIN" "own").
Proof. eexists _, _. split; [vm_compute; reflexivity|]. split; [eexists; split; vm_compute; reflexivity|]. split; [vm_compute; reflexivity|]. repeat split; vm_compute; reflexivity. Qed.
Definition twice : str -> option raw := put_file "sub" (mkRaw sub_defs []) (put_file "main" (mkRaw main_defs [(u "main", [full_ref "sub" "_sub.x" None; full_ref "sub" "_sub.x" None])]) no_files).
(** The same frame imported by two entries with dupl "Exit": light imports do not
    notice, as they look at own definitions only. *)
Theorem C123_twice_refuted : exists d, load 3 false (u "All") as_named twice 3 (u "main") = Ret d /\ length (s_imports d) = 2.
Proof. eexists. split; vm_compute; reflexivity. Qed.

Definition obtain_theorems := (C122_lookup, C122_absent, C122_one_answer, C122_case_refuted, C122_transitive_refuted,
  C123_selected, C123_files, C123_error, C123_missing, C123_duplicate, C123_light_contents, C123_light_full, C123_heavy_contents, C123_heavy_is_light, C123_strict,
  C123_mutual_refuted, C123_override_refuted, C123_replace_refuted, C123_twice_refuted).
Print Assumptions obtain_theorems.
