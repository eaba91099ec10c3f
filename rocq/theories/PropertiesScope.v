(** C127: mandatory and prohibited attributes as a dictionary lists them. *)
From Coq Require Import String Ascii List NArith ZArith PeanoNat Bool Lia.
From Verif Require Import PyBase PyFacts StarBlockModel StarBlockSpec PropertiesBlock LoopModel LoopSpec ValidateModel BlockCheckModel BlockCheckSpec PropertiesBlockCheck.
From Verif Require Import TreeModel TreeSpec TreeProofs2 PropertiesTree ScopeModel ScopeSpec ScopeProofs.
Import ListNotations.
Open Scope nat_scope.
Local Open Scope string_scope.

(** For each scope with a row the names of its last row are taken, and categories
    stand for the items in them at any depth. *)
Theorem C127_tables n d height b names rows : well_formed d -> acyclic d height -> 0 < n -> WF b -> get_loop_names (u "_dictionary_valid.application") b = Ret names ->
  is_table b names rows -> In (u "_dictionary_valid.attributes") names ->
  (forall i, i < rows -> exists s k l, demand b i s k l /\ forall c, In c l -> category d (lower c) -> S (height (lower c)) < n) ->
  exists mand naughty, parse_valid n d b = Ret (mand, naughty) /\ holds_demands d b (u "Mandatory") mand /\ holds_demands d b (u "Prohibited") naughty.
Proof. exact (parse_valid_ok n d height b names rows). Qed.
(** A dictionary without such rows has no demands. *)
Theorem C127_none n d b : has_key (u "_dictionary_valid.application") b = false -> parse_valid n d b = Ret ([], []).
Proof. exact (parse_valid_none n d b). Qed.
(** What the checks of definitions make of it: a definition passes exactly if it has
    every attribute listed as mandatory for its scope and none listed as prohibited. *)
Theorem C127_definitions n d height b names rows t s : well_formed d -> acyclic d height -> 0 < n -> WF b -> get_loop_names (u "_dictionary_valid.application") b = Ret names ->
  is_table b names rows -> In (u "_dictionary_valid.attributes") names ->
  (forall i, i < rows -> exists s k l, demand b i s k l /\ forall c, In c l -> category d (lower c) -> S (height (lower c)) < n) ->
  in_scope t (u "Item") s -> (exists i l, demand b i s (u "Mandatory") l) -> (exists i l, demand b i s (u "Prohibited") l) ->
  exists mand naughty r r', parse_valid n d b = Ret (mand, naughty) /\ check_mandatory_items mand t (u "Item") = Ret r /\ check_prohibited_items naughty t (u "Item") = Ret r'
  /\ (r = RTrue <-> forall l c a, latest b s (u "Mandatory") l -> In c l -> stands_for d c a -> tget a t <> None)
  /\ (r' = RTrue <-> forall l c a, latest b s (u "Prohibited") l -> In c l -> stands_for d c a -> tget a t = None).
Proof.
  intros W A P WFb L T I R S M N. destruct (parse_valid_ok n d height b names rows W A P WFb L T I R) as (mand & naughty & E & (M1 & M2) & (N1 & N2)).
  destruct (proj2 (M1 s) M) as (lm & Gm). destruct (proj2 (N1 s) N) as (ln & Gn).
  destruct (C64_mandatory_attributes mand t (u "Item") s lm S ltac:(discriminate) Gm) as (r & Er & Tr & _). destruct (C64_prohibited_attributes naughty t (u "Item") s ln S ltac:(discriminate) Gn) as (r' & Er' & Tr' & _).
  exists mand, naughty, r, r'. split; [exact E|]. split; [exact Er|]. split; [exact Er'|]. split.
  - rewrite Tr. split; [intros H l c a La Ic Sc; apply H; apply (M2 s lm a Gm); now exists l, c|]. intros H a Ia. apply (M2 s lm a Gm) in Ia. destruct Ia as (l & c & La & Ic & Sc). exact (H l c a La Ic Sc).
  - rewrite Tr'. split; [intros H l c a La Ic Sc; apply H; apply (N2 s ln a Gn); now exists l, c|]. intros H a Ia. apply (N2 s ln a Gn) in Ia. destruct Ia as (l & c & La & Ic & Sc). exact (H l c a La Ic Sc).
Qed.

Definition texts_of (l : list string) : value := VSL (map (fun x => VStr (u x)) l).
Definition scope_ops (rows : list (list string * list string)) : list op :=
  [ OAdd (u "_dictionary_valid.application") (VList (map (fun r => texts_of (fst r)) rows));
    OAdd (u "_dictionary_valid.attributes") (VList (map (fun r => texts_of (snd r)) rows));
    OCreate [u "_dictionary_valid.application"; u "_dictionary_valid.attributes"] (-1)%Z ].
Definition master rows : block := run_ops (scope_ops rows) (empty_block true (-1)%Z false).
Definition rows1 : list (list string * list string) :=
  [(["Item"; "Mandatory"], ["Atom"; "_zz.q"]); (["Item"; "Prohibited"], ["_dictionary.title"]); (["Category"; "Recommended"], ["_zz.p"])].
Definition cols1 : list str := [u "_dictionary_valid.application"; u "_dictionary_valid.attributes"].
Example C127_example : parse_valid 6 dict0 (master rows1) = Ret ([(u "Item", [u "_atom.x"; u "_aniso.u"; u "_zz.q"])], [(u "Item", [u "_dictionary.title"])]).
Proof. vm_compute. reflexivity. Qed.
Example C127_meets : well_formed dict0 /\ acyclic dict0 height0 /\ WF (master rows1) /\ get_loop_names (u "_dictionary_valid.application") (master rows1) = Ret cols1
  /\ is_table (master rows1) cols1 3 /\ In (u "_dictionary_valid.attributes") cols1
  /\ (forall i, i < 3 -> exists s k l, demand (master rows1) i s k l /\ forall c, In c l -> category dict0 (lower c) -> S (height0 (lower c)) < 6)
  /\ in_scope [] (u "Item") (u "Item") /\ (exists i l, demand (master rows1) i (u "Item") (u "Mandatory") l) /\ (exists i l, demand (master rows1) i (u "Item") (u "Prohibited") l).
Proof.
  assert (forall i s k l, nth_error rows1 i = Some ([s; k], l) -> demand (master rows1) i (u s) (u k) (map u l)) as D.
  { intros i s k l H. exists (texts_of [s; k]), (texts_of l). destruct i as [|[|[|i]]]; [| | |destruct i; discriminate H]; injection H as <- <- <-;
    (split; [eexists; split; vm_compute; reflexivity|]; split; [right; reflexivity|]; split; [eexists; split; vm_compute; reflexivity|right; reflexivity]). }
  split; [exact dict0_wf|]. split; [exact dict0_acyclic|]. split.
  { apply C03_reachable_wf. exists (scope_ops rows1), true, (-1)%Z, false. split; [|reflexivity]. repeat (constructor; try exact I); try (cbn; intuition discriminate). }
  split; [vm_compute; reflexivity|]. split.
  { split; [discriminate|]. intros n [<-|[<-|[]]]; (split; [vm_compute; reflexivity|eexists; split; vm_compute; reflexivity]). }
  split; [right; now left|]. split.
  { intros i Hi. destruct i as [|[|[|i]]]; [| | |lia]; (eexists _, _, _; split; [apply D; reflexivity|]); intros c Ic _; repeat (destruct Ic as [<-|Ic]; [vm_compute; lia|]); destruct Ic. }
  split; [apply is_default; reflexivity|]. split; [exists 0|exists 1]; eexists; apply D; reflexivity.
Qed.
(** Two rows for the same scope and requirement: only the last one counts. *)
Theorem C127_rows_refuted : exists d b mand naughty, demand b 0 (u "Item") (u "Mandatory") [u "_a.x"] /\ demand b 1 (u "Item") (u "Mandatory") [u "_a.y"]
  /\ parse_valid 6 d b = Ret (mand, naughty) /\ mand = [(u "Item", [u "_a.y"])] /\ check_mandatory_items mand [(u "_a.y", VStr (u "1"))] (u "Item") = Ret RTrue.
Proof.
  exists [], (master [(["Item"; "Mandatory"], ["_a.x"]); (["Item"; "Mandatory"], ["_a.y"])]). eexists _, _.
  split; [exists (texts_of ["Item"; "Mandatory"]), (texts_of ["_a.x"])|split; [exists (texts_of ["Item"; "Mandatory"]), (texts_of ["_a.y"])|]].
  1-2: (split; [eexists; split; vm_compute; reflexivity|]; split; [right; reflexivity|]; split; [eexists; split; vm_compute; reflexivity|right; reflexivity]).
  split; [vm_compute; reflexivity|]. split; vm_compute; reflexivity.
Qed.
(** A single row given without a loop is an error. *)
Theorem C127_unlooped_refuted : exists b, get_item (u "_dictionary_valid.application") b = Ret (texts_of ["Item"; "Mandatory"]) /\ get_item (u "_dictionary_valid.attributes") b = Ret (texts_of ["_a.x"])
  /\ forall n d, parse_valid n d b = Raise KeyErr.
Proof.
  exists (run_ops [OAdd (u "_dictionary_valid.application") (texts_of ["Item"; "Mandatory"]); OAdd (u "_dictionary_valid.attributes") (texts_of ["_a.x"])] (empty_block true (-1)%Z false)).
  split; [vm_compute; reflexivity|]. split; [vm_compute; reflexivity|]. intros n d. vm_compute. reflexivity.
Qed.

Definition scope_theorems := (C127_tables, C127_none, C127_definitions, C127_rows_refuted, C127_unlooped_refuted).
Print Assumptions scope_theorems.
