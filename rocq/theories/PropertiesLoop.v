(** Theorems about row access to loops.  [WF] holds of every block built through
    the editing interface (C03_reachable_wf). *)
From Coq Require Import String Ascii List NArith ZArith Bool Permutation.
From Verif Require Import PyBase StarBlockModel StarBlockSpec StarBlockProofs StarBlockProofs2 PropertiesBlock
  LoopModel LoopSpec LoopProofs LoopProofs2 LoopProofs3.
Import ListNotations.
Ltac now_computed := first [vm_compute; reflexivity | reflexivity].

(** A block with a two-row loop of a text column, a mixed column and a text column. *)
Definition loop_ops : list op :=
  [ OAdd (u "_Title") (VStr (u "t"));
    OAdd (u "_id") (VList [VStr (u "a"); VStr (u "B"); VStr (u "a")]);
    OAdd (u "_n") (VList [VNum (u "1"); VStr (u "x"); VNum (u "2")]);
    OAdd (u "_t") (VList [VStr (u "p"); VStr (u "q"); VStr (u "P")]);
    OCreate [u "_id"; u "_n"; u "_t"] (-1) ].
Definition loop_block : block := run_ops loop_ops (empty_block true (-1) false).
Definition loop_cols : list str := [u "_id"; u "_n"; u "_t"].
Example loop_block_reachable : reachable loop_block.
Proof.
  exists loop_ops, true, (-1)%Z, false. split; [|now_computed].
  repeat (constructor; try exact I); try (cbn; intuition discriminate).
Qed.
Example loop_block_table : is_table loop_block loop_cols 3 /\ get_loop_names (u "_T") loop_block = Ret loop_cols.
Proof.
  split; [|now_computed]. split; [discriminate|].
  intros n [<-|[<-|[<-|[]]]]; (split; [now_computed|eexists; split; now_computed]).
Qed.

(* ------------------------------------------------------------------ C11 *)
Theorem C11_packets_transpose : forall b key names rows,
  WF b -> get_loop_names key b = Ret names -> is_table b names rows ->
  exists ps, loop_packets key b = Ret ps /\ length ps = rows /\
    forall i p, nth_error ps i = Some p -> is_row b names i p.
Proof. exact packets_spec. Qed.

(** Fetching one packet by number, from the front or from the end. *)
Theorem C11_get_packet : forall b key names rows,
  WF b -> get_loop_names key b = Ret names -> is_table b names rows ->
  (forall i, (- Z.of_nat rows <= i < Z.of_nat rows)%Z ->
     exists p, get_packet key i b = Ret p /\
       is_row b names (Z.to_nat (if (i <? 0)%Z then i + Z.of_nat rows else i)%Z) p) /\
  (forall i, (i < - Z.of_nat rows \/ Z.of_nat rows <= i)%Z -> get_packet key i b = Raise IndexErr).
Proof. exact get_packet_spec. Qed.

(** A row number and a block determine the packet. *)
Theorem C11_row_unique : forall b names i p q, is_row b names i p -> is_row b names i q -> p = q.
Proof. exact is_row_unique. Qed.

Example C11_example : loop_packets (u "_ID") loop_block = Ret
  [ [(u "_id", VStr (u "a")); (u "_n", VNum (u "1")); (u "_t", VStr (u "p"))];
    [(u "_id", VStr (u "B")); (u "_n", VStr (u "x")); (u "_t", VStr (u "q"))];
    [(u "_id", VStr (u "a")); (u "_n", VNum (u "2")); (u "_t", VStr (u "P"))] ].
Proof. now_computed. Qed.

(* ------------------------------------------------------------------ C12 *)
Theorem C12_add_packet : forall b key names rows p,
  WF b -> get_loop_names key b = Ret names -> is_table b names rows ->
  b_over b = true ->
  (forall n, In n names -> check_data_name (b_max b) (b_uni b) n = Ret tt) ->
  (forall n i v, In n names -> cell b n i v -> acceptable_value (b_uni b) (VList [v])) ->
  (forall n, In n names -> exists x, p_attr n p = Ret x /\ acceptable_value (b_uni b) (VList [x])) ->
  exists b', add_packet key p b = (b', Ret tt) /\
    is_table b' names (S rows) /\
    (forall n i v, In n names -> cell b n i v -> cell b' n i v) /\
    (forall n v, In n names -> (cell b' n rows v <-> p_attr n p = Ret v)) /\
    (forall m, ~ In (lower m) names -> get_item m b' = get_item m b) /\ same_layout b b'.
Proof. exact add_packet_spec. Qed.

Definition ex_packet : packet := [(u "_id", VStr (u "z")); (u "_n", VNum (u "7")); (u "_t", VStr (u "r"))].
Example C12_example : exists b', add_packet (u "_t") ex_packet loop_block = (b', Ret tt) /\
  get_item (u "_n") b' = Ret (VList [VNum (u "1"); VStr (u "x"); VNum (u "2"); VNum (u "7")]).
Proof. eexists. split; now_computed. Qed.
Example C12_example_hypotheses : b_over loop_block = true /\
  (forall n, In n loop_cols -> check_data_name (b_max loop_block) (b_uni loop_block) n = Ret tt) /\
  (forall n i v, In n loop_cols -> cell loop_block n i v -> acceptable_value (b_uni loop_block) (VList [v])) /\
  (forall n, In n loop_cols -> exists x, p_attr n ex_packet = Ret x /\ acceptable_value (b_uni loop_block) (VList [x])).
Proof.
  split; [now_computed|]. split; [|split].
  - intros n [<-|[<-|[<-|[]]]]; now_computed.
  - intros n i v [<-|[<-|[<-|[]]]] (l & E & H); vm_compute in E; injection E as <-;
      do 3 (destruct i as [|i]; [cbn in H; injection H as <-; split; [eexists; now_computed|now_computed]|]); destruct i; discriminate.
  - intros n [<-|[<-|[<-|[]]]]; eexists; (split; [now_computed|split; [eexists; now_computed|now_computed]]).
Qed.

(** When the packet lacks a value the error comes after earlier columns have
    grown: the loop is left with columns of different lengths. *)
Theorem C12_missing_value_refuted : exists b p b' e,
  reachable b /\ add_packet (u "_id") p b = (b', Raise e) /\
  exists l m, get_item (u "_id") b' = Ret (VList l) /\ get_item (u "_n") b' = Ret (VList m) /\ length l <> length m.
Proof.
  exists loop_block, [(u "_id", VStr (u "z"))]. do 2 eexists. split; [apply loop_block_reachable|].
  split; [now_computed|]. do 2 eexists. split; [now_computed|]. split; [now_computed|]. discriminate.
Qed.

(** In a block locked against overwriting the call fails but the first column has
    already grown. *)
Theorem C12_locked_refuted : exists b p b' e,
  reachable b /\ b_over b = false /\ add_packet (u "_id") p b = (b', Raise e) /\
  get_item (u "_id") b' <> get_item (u "_id") b.
Proof.
  exists (run_ops (loop_ops ++ [OOverwrite false]) (empty_block true (-1) false)), ex_packet. do 2 eexists.
  split; [|split; [now_computed|split; [now_computed|vm_compute; discriminate]]].
  exists (loop_ops ++ [OOverwrite false]), true, (-1)%Z, false. split; [|now_computed].
  repeat (constructor; try exact I); try (cbn; intuition discriminate).
Qed.

(** Adding a row also replaces the spelling used for output by lower case. *)
Theorem C12_spelling_refuted : exists b p b',
  reachable b /\ add_packet (u "_a") p b = (b', Ret tt) /\
  dget str_eqb (u "_a") (b_true b) = Some (u "_A") /\ dget str_eqb (u "_a") (b_true b') = Some (u "_a").
Proof.
  exists (run_ops [OAdd (u "_A") (VList [VStr (u "x")]); OCreate [u "_A"] (-1)] (empty_block true (-1) false)),
         [(u "_a", VStr (u "y"))]. eexists.
  split; [|split; [now_computed|split; now_computed]].
  exists [OAdd (u "_A") (VList [VStr (u "x")]); OCreate [u "_A"] (-1)], true, (-1)%Z, false. split; [|now_computed].
  repeat (constructor; try exact I); try (cbn; intuition discriminate).
Qed.

(* ------------------------------------------------------------------ C13 *)
Theorem C13_keyed_packet : forall b key names rows kv,
  WF b -> get_loop_names key b = Ret names -> is_table b names rows ->
  let matching := row_matches b key (fun v => same_value v kv) in
  (forall p, get_keyed_packet key kv false b = Ret p <-> exists i, only matching i /\ is_row b names i p) /\
  ((~ exists i, only matching i) -> get_keyed_packet key kv false b = Raise ValueErr).
Proof. exact keyed_spec. Qed.

Theorem C13_keyed_packet_no_case : forall b key names rows s,
  WF b -> get_loop_names key b = Ret names -> is_table b names rows ->
  (forall i v, cell b key i v -> exists x, v = VStr x) ->
  let matching := row_matches b key (fun v => same_text_nocase v (VStr s)) in
  (forall p, get_keyed_packet key (VStr s) true b = Ret p <-> exists i, only matching i /\ is_row b names i p) /\
  ((~ exists i, only matching i) -> get_keyed_packet key (VStr s) true b = Raise ValueErr).
Proof. exact keyed_nocase_spec. Qed.

Example C13_example :
  get_keyed_packet (u "_id") (VStr (u "B")) false loop_block
    = Ret [(u "_id", VStr (u "B")); (u "_n", VStr (u "x")); (u "_t", VStr (u "q"))]
  /\ get_keyed_packet (u "_id") (VStr (u "a")) false loop_block = Raise ValueErr
  /\ get_keyed_packet (u "_id") (VStr (u "b")) false loop_block = Raise ValueErr
  /\ get_keyed_packet (u "_id") (VStr (u "b")) true loop_block
    = Ret [(u "_id", VStr (u "B")); (u "_n", VStr (u "x")); (u "_t", VStr (u "q"))]
  /\ get_keyed_packet (u "_t") (VStr (u "p")) true loop_block = Raise ValueErr.
Proof. repeat split; now_computed. Qed.

(** A number in the key column makes the case-insensitive search fail with
    AttributeError, even if another row matches. *)
Theorem C13_no_case_number_refuted : exists b key names rows kv i,
  reachable b /\ get_loop_names key b = Ret names /\ is_table b names rows /\
  only (row_matches b key (fun v => same_text_nocase v kv)) i /\
  get_keyed_packet key kv true b = Raise AttributeErr.
Proof.
  exists loop_block, (u "_n"), loop_cols, 3%nat, (VStr (u "x")), 1%nat. split; [apply loop_block_reachable|].
  split; [now_computed|]. split; [apply loop_block_table|]. split; [|now_computed]. split.
  - exists (VStr (u "x")). split; [eexists; split; now_computed|]. exists (u "x"), (u "x"). auto.
  - intros j (v & (l & E & H) & (s & t & -> & _)). vm_compute in E. injection E as <-.
    destruct j as [|[|[|j]]]; cbn in H; try discriminate; [now_computed|]. destruct j; discriminate.
Qed.

(* ------------------------------------------------------------------ C14 *)
Theorem C14_compound_key : forall repr b keys names rows,
  WF b -> keys <> [] -> is_table b names rows ->
  (forall k kv, In (k, kv) keys -> In (lower k) names) ->
  let matching := fun i => forall k kv, In (k, kv) keys -> row_matches b k (key_holds repr kv) i in
  (forall p, get_compound_packet repr keys b = Ret p <-> exists i, only matching i /\ is_row b names i p) /\
  ((~ exists i, only matching i) -> get_compound_packet repr keys b = Raise ValueErr).
Proof. exact compound_spec. Qed.

Theorem C14_order_independent : forall repr b keys keys' names rows,
  WF b -> keys <> [] -> is_table b names rows ->
  (forall k kv, In (k, kv) keys -> In (lower k) names) -> Permutation keys keys' ->
  get_compound_packet repr keys b = get_compound_packet repr keys' b.
Proof. exact compound_perm. Qed.

Example C14_example :
  get_compound_packet (fun _ => []) [(u "_id", (VStr (u "a"), false)); (u "_T", (VStr (u "P"), false))] loop_block
    = Ret [(u "_id", VStr (u "a")); (u "_n", VNum (u "2")); (u "_t", VStr (u "P"))]
  /\ get_compound_packet (fun _ => []) [(u "_id", (VStr (u "A"), true)); (u "_n", (VNum (u "1"), true))] loop_block
    = Ret [(u "_id", VStr (u "a")); (u "_n", VNum (u "1")); (u "_t", VStr (u "p"))]
  /\ get_compound_packet (fun _ => []) [(u "_id", (VStr (u "A"), true)); (u "_t", (VStr (u "p"), true))] loop_block
    = Raise ValueErr.
Proof. repeat split; now_computed. Qed.

(* ------------------------------------------------------------------ C15 *)
(** For every loop of a block built through the editing interface: the first row
    whose key matches goes, from every column, and nothing else changes; without
    a matching row nothing changes. *)
Theorem C15_remove_keyed : forall b key names rows kv,
  reachable b -> get_loop_names key b = Ret names -> is_table b names rows ->
  let matching := row_matches b key (fun v => same_value v kv) in
  (forall i, matching i -> (forall j, (j < i)%nat -> ~ matching j) ->
     exists b', remove_keyed_packet key kv b = (b', Ret tt) /\
       (forall n l, In n names -> get_item n b = Ret (VList l) ->
          exists l', get_item n b' = Ret (VList l') /\ entry_deleted i l l') /\
       (forall m, ~ In (lower m) names -> get_item m b' = get_item m b) /\
       same_layout b b' /\ b_true b' = b_true b /\ consistent b') /\
  ((forall i, ~ matching i) -> remove_keyed_packet key kv b = (b, Raise ValueErr)).
Proof.
  intros b key names rows kv R. pose proof (C03_reachable_wf b R) as W.
  destruct R as (os & ov & m & un & A & ->).
  exact (remove_keyed_spec _ key names rows kv W
           (run_ops_consistent os _ (empty_wf ov m un) A (fun k e H => ltac:(discriminate H)))).
Qed.

(** The same for every well-formed block whose two stored versions of each column
    agree in length, so also after earlier removals (the conclusion of
    [C15_remove_keyed] provides the hypothesis). *)
Theorem C15_remove_keyed_again : forall b key names rows kv,
  WF b -> consistent b -> get_loop_names key b = Ret names -> is_table b names rows ->
  let matching := row_matches b key (fun v => same_value v kv) in
  (forall i, matching i -> (forall j, (j < i)%nat -> ~ matching j) ->
     exists b', remove_keyed_packet key kv b = (b', Ret tt) /\
       (forall n l, In n names -> get_item n b = Ret (VList l) ->
          exists l', get_item n b' = Ret (VList l') /\ entry_deleted i l l') /\
       (forall m, ~ In (lower m) names -> get_item m b' = get_item m b) /\
       same_layout b b' /\ b_true b' = b_true b /\ consistent b') /\
  ((forall i, ~ matching i) -> remove_keyed_packet key kv b = (b, Raise ValueErr)).
Proof. exact remove_keyed_spec. Qed.

Example C15_example : exists b', remove_keyed_packet (u "_ID") (VStr (u "a")) loop_block = (b', Ret tt) /\
  get_items loop_cols b' = Ret [VList [VStr (u "B"); VStr (u "a")]; VList [VStr (u "x"); VNum (u "2")];
                                VList [VStr (u "q"); VStr (u "P")]].
Proof. eexists. split; now_computed. Qed.

(** In a loop as stored by the file reader (values stored without a calculated
    version) the removal fails after shortening the first column. *)
Theorem C15_file_loop_refuted : exists b b1 b2 b',
  add_item (u "_a") (VList [VStr (u "1"); VStr (u "2")]) true (empty_block true (-1) false) = (b1, Ret tt) /\
  add_item (u "_b") (VList [VStr (u "3"); VStr (u "4")]) true b1 = (b2, Ret tt) /\
  create_loop [u "_a"; u "_b"] (-1) true b2 = (b, Ret tt) /\
  is_table b [u "_a"; u "_b"] 2 /\ row_matches b (u "_a") (fun v => same_value v (VStr (u "1"))) 0 /\
  remove_keyed_packet (u "_a") (VStr (u "1")) b = (b', Raise TypeErr) /\
  get_item (u "_a") b' = Ret (VList [VStr (u "2")]) /\
  get_item (u "_b") b' = Ret (VList [VStr (u "3"); VStr (u "4")]).
Proof.
  do 4 eexists. split; [now_computed|]. split; [now_computed|]. split; [now_computed|]. split; [|split; [|split; [now_computed|split; now_computed]]].
  - split; [discriminate|]. intros n [<-|[<-|[]]]; (split; [now_computed|eexists; split; now_computed]).
  - exists (VStr (u "1")). split; [eexists; split; now_computed|constructor].
Qed.

(** One command for all the theorems above: what it lists is the union of what they
    depend on. *)
Definition loop_theorems :=
  (C11_packets_transpose,
   C11_get_packet,
   C11_row_unique,
   C12_add_packet,
   C12_missing_value_refuted,
   C12_locked_refuted,
   C12_spelling_refuted,
   C13_keyed_packet,
   C13_keyed_packet_no_case,
   C13_no_case_number_refuted,
   C14_compound_key,
   C14_order_independent,
   C15_remove_keyed,
   C15_remove_keyed_again,
   C15_file_loop_refuted).
Print Assumptions loop_theorems.
