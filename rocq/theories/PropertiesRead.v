(** Theorems about the contents of data blocks as built by the parser. *)
From Coq Require Import String Ascii List NArith ZArith Bool Lia.
From Verif Require Import PyBase StarBlockModel StarBlockSpec StarBlockProofs2 LoopSpec ReadModel ReadSpec ReadProofs ReadProofs2.
Import ListNotations.

(* ------------------------------------------------------------------ C28 *)
(** Any number of names and values: the loop is built exactly if the number of
    names divides the number of values, column j then holds values j, j+k, ... *)
Theorem C28_round_robin : forall ns vs b,
  WF b -> ns <> [] -> vs <> [] -> Forall is_dataname ns -> Forall parsed vs -> ends_full vs ->
  NoDup (map lower ns) -> (forall n, In n ns -> has_key n b = false) ->
  (Nat.divide (length ns) (length vs) ->
     exists b', makeloop ns vs b = (b', Ret tt) /\ holds_rows b' ns vs /\
       forall m, ~ In (lower m) (map lower ns) -> get_item m b' = get_item m b) /\
  (~ Nat.divide (length ns) (length vs) -> snd (makeloop ns vs b) = Raise ValueErr).
Proof.
  intros ns vs b W H1 H2 H3 H4 H5 H6 H7. split.
  - intros D. destruct (makeloop_good ns vs b W H1 H2 H3 H4 H5 H6 H7 D) as (b' & E & A & R & _).
    exists b'. split; [exact E|]. split; [exact R|]. intros m Hm. apply StarBlockProofs3.get_item_data. now apply (ad_frame _ _ _ A).
  - exact (makeloop_bad ns vs b W H1 H2 H3 H4 H5 H6 H7).
Qed.

Definition v (s : string) : value := VStr (u s).
Example C28_example : exists b', makeloop [u "_a"; u "_B"; u "_c"] [v "1"; v "2"; VSL [v "x"]; v "4"; v "5"; v "6"] (empty_block false (-1) false) = (b', Ret tt)
  /\ get_items [u "_a"; u "_b"; u "_c"] b' = Ret [VList [v "1"; v "4"]; VList [v "2"; v "5"]; VList [VSL [v "x"]; v "6"]].
Proof. eexists. split; reflexivity. Qed.
Example C28_example_ragged : snd (makeloop [u "_a"; u "_b"] [v "1"; v "2"; v "3"] (empty_block false (-1) false)) = Raise ValueErr.
Proof. reflexivity. Qed.

(** If the last value is an empty list it is thrown away: with one name the loop is
    accepted but a value is lost, with two names a correct loop is rejected. *)
Theorem C28_empty_list_refuted : exists n m vs b b',
  makeloop [n] vs b = (b', Ret tt) /\ length vs = 2%nat /\ get_item n b' = Ret (VList [v "1"]) /\
  whole_rows [n; m] vs /\ distinct_names [n; m] /\ snd (makeloop [n; m] vs b) = Raise ValueErr.
Proof.
  exists (u "_a"), (u "_b"), [v "1"; VSL []], (empty_block false (-1) false). eexists. split; [reflexivity|]. split; [reflexivity|]. split; [reflexivity|].
  split; [exists 1%nat; reflexivity|]. split; [|reflexivity]. repeat constructor; cbn; intuition discriminate.
Qed.

Theorem C28_no_names_lost : forall vs b, WF b -> vs <> [] -> snd (makeloop [] vs b) = Ret tt /\
  forall m, get_item m (fst (makeloop [] vs b)) = get_item m b.
Proof. exact makeloop_nameless. Qed.
(** A loop without names (accepted by the grammar) loses all its values. *)
Theorem C28_no_names_refuted : exists vs b, vs = [v "1"; v "2"] /\ b_keys b = [] /\ snd (makeloop [] vs b) = Ret tt /\ b_keys (fst (makeloop [] vs b)) = [].
Proof. exists [v "1"; v "2"], (empty_block false (-1) false). split; [reflexivity|]. split; [reflexivity|]. split; reflexivity. Qed.

(* ------------------------------------------------------------------ C29 *)
(** A data block of any length is accepted exactly if all datanames, looped or
    not, differ ignoring case (and loops are complete and names short enough);
    then every entry holds the value given, in file order. *)
Theorem C29_read_block : forall its mx un,
  Forall item_ok its -> Forall loop_full its ->
  let r := read_block its (empty_block false mx un) in
  (snd r = Ret tt <->
     NoDup (map lower (all_names its)) /\ Forall item_whole its /\
     ((0 < mx)%Z -> forall n, In n (all_names its) -> (Z.of_nat (length n) <= mx)%Z)) /\
  (snd r = Ret tt ->
     WF (fst r) /\ Forall (holds_item (fst r)) its /\
     b_keys (fst r) = map lower (all_names its) /\
     b_true (fst r) = map (fun n => (lower n, n)) (all_names its) /\
     b_order (fst r) = layout 1 its /\ b_loops (fst r) = loop_layout 1 its) /\
  (snd r <> Ret tt -> snd r = Raise StarErr \/ snd r = Raise ValueErr).
Proof. exact read_block_full. Qed.

Theorem C29_duplicate_rejected : forall its mx un a b n m,
  Forall item_ok its -> Forall loop_full its ->
  nth_error (all_names its) a = Some n -> nth_error (all_names its) b = Some m -> a <> b -> lower n = lower m ->
  exists e, snd (read_block its (empty_block false mx un)) = Raise e.
Proof. exact read_block_duplicate. Qed.

Definition ex_items : list item :=
  [Kv (u "_Title") (v "t"); Lp [u "_a"; u "_b"] [v "1"; v "2"; v "3"; v "4"]; Kv (u "_z") (VSL [v "p"]); Lp [u "_c"] [v "9"]].
Example C29_example_hypotheses : Forall item_ok ex_items /\ Forall loop_full ex_items /\ Forall item_whole ex_items
  /\ NoDup (map lower (all_names ex_items)).
Proof.
  assert (forall s, parsed (v s)) as P by (intros; constructor).
  split; [|split; [|split]].
  - repeat constructor; try discriminate; try (now exists (u "Title")); try (now exists (u "a")); try (now exists (u "b"));
      try (now exists (u "z")); try (now exists (u "c")).
  - repeat constructor; intros vs0 H; apply (f_equal (@rev value)) in H; rewrite rev_app_distr in H; discriminate.
  - repeat constructor; [exists 2%nat|exists 1%nat]; reflexivity.
  - cbn. repeat (constructor; [cbn; intuition discriminate|]). constructor.
Qed.
Example C29_example : snd (read_block ex_items (empty_block false 75 false)) = Ret tt
  /\ snd (read_block (ex_items ++ [Kv (u "_TITLE") (v "x")]) (empty_block false 75 false)) = Raise StarErr
  /\ snd (read_block (ex_items ++ [Lp [u "_q"; u "_B"] [v "x"; v "y"]]) (empty_block false 75 false)) = Raise StarErr
  /\ snd (read_block [Lp [u "_q"; u "_Q"] [v "x"; v "y"]] (empty_block false 75 false)) = Raise StarErr.
Proof. repeat split; reflexivity. Qed.

(** One command for all the theorems above: what it lists is the union of what they
    depend on. *)
Definition read_theorems :=
  (C28_round_robin,
   C28_empty_list_refuted,
   C28_no_names_refuted, C28_no_names_lost,
   C29_read_block,
   C29_duplicate_rejected).
Print Assumptions read_theorems.
