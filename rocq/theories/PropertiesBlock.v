(** Property theorems C01-C10, C16, C17: one data block. *)
From Coq Require Import String Ascii List NArith ZArith Bool Lia Permutation.
From Verif Require Import PyBase PyFacts StarBlockModel StarBlockSpec StarBlockProofs StarBlockProofs2
  StarBlockProofs3 StarBlockProofs4 StarBlockProofs5 StarBlockProofs6.
Import ListNotations.
Ltac now_computed := first [vm_compute; reflexivity | reflexivity].
Ltac computed := repeat match goal with |- _ /\ _ => split end; now_computed.

(* ------------------------------------------------------------------ *)
(** A block used by the examples: "_Name" = "x", a loop of two columns with two
    rows, and two single values. *)
Definition ex_ops : list op :=
  [ OAdd (u "_Name") (VStr (u "x"));
    OAdd (u "_a") (VList [VStr (u "1"); VStr (u "2")]);
    OAdd (u "_b") (VList [VStr (u "p"); VStr (u "q")]);
    OCreate [u "_a"; u "_b"] (-1);
    OAdd (u "_s1") (VStr (u "v"));
    OAdd (u "_s2") (VNum (u "3")) ].
Definition ex_block : block := run_ops ex_ops (empty_block true (-1) false).

(** Blocks that a program can build. *)
Definition reachable (b : block) : Prop :=
  exists os ov m un, Forall admissible os /\ b = run_ops os (empty_block ov m un).

Example ex_reachable : reachable ex_block.
Proof.
  exists ex_ops, true, (-1)%Z, false. split; [|reflexivity].
  repeat (constructor; try exact I); try (cbn; intuition discriminate).
Qed.

(* ------------------------------------------------------------------ C03 *)
(** Every history of operations, whatever its outcome, leaves every dataname with
    exactly one place: the names at top level plus the names in loops are a
    permutation of the stored datanames (which are distinct), and the loop
    references are a permutation of the (distinct) loop numbers. *)
Theorem C03_one_place : forall (os : list op) ov m un,
  Forall admissible os ->
  let b := run_ops os (empty_block ov m un) in
  NoDup (b_keys b) /\ Permutation (printed_names b) (b_keys b) /\
  NoDup (dkeys (b_loops b)) /\ Permutation (order_loops (b_order b)) (dkeys (b_loops b)).
Proof.
  intros os ov m un A b.
  assert (W : WF b) by (apply run_ops_wf; [apply empty_wf|assumption]).
  exact (conj (wf_keys b W) (conj (wf_place b W) (conj (wf_nums b W) (wf_refs b W)))).
Qed.

Theorem C03_reachable_wf : forall b, reachable b -> WF b.
Proof. intros b (os & ov & m & un & A & ->). exact (run_ops_wf os _ (empty_wf ov m un) A). Qed.

Example C03_example :
  printed_names ex_block = [u "_name"; u "_s1"; u "_s2"; u "_a"; u "_b"]
  /\ b_order ex_block = [ON (u "_name"); OL 1; ON (u "_s1"); ON (u "_s2")].
Proof. split; now_computed. Qed.

(** Without the distinctness condition the property fails: CreateLoop accepts a
    repeated name and the column would be printed twice. *)
Theorem C03_repeated_names_refuted : exists b names b',
  reachable b /\ create_loop names (-1) true b = (b', Ret tt) /\ ~ NoDup (printed_names b').
Proof.
  exists ex_block, [u "_a"; u "_A"]. eexists. split; [apply ex_reachable|].
  split; [now_computed|]. intros N. vm_compute in N.
  repeat match goal with H : NoDup (_ :: _) |- _ => inversion H; subst; clear H end.
  match goal with H : ~ In ?x (?x :: _) |- _ => apply H; left; now_computed end.
Qed.

(* ------------------------------------------------------------------ C01 *)
Theorem C01_case_insensitive : forall k k' b,
  lower k = lower k' -> k <> u "saves" -> k' <> u "saves" ->
  has_key k b = has_key k' b /\ get_item k b = get_item k' b /\
  remove_item k b = remove_item k' b /\ get_loop_names k b = get_loop_names k' b /\
  get_item_position (ON k) b = get_item_position (ON k') b /\
  (forall p, change_item_order (ON k) p b = change_item_order (ON k') p b) /\
  (forall v, snd (set_item k v b) = snd (set_item k' v b) /\
             same_but_spelling (fst (set_item k v b)) (fst (set_item k' v b))).
Proof.
  intros k k' b E N1 N2.
  exact (conj (has_key_ext k k' b E) (conj (get_item_ext k k' b E N1 N2)
        (conj (remove_item_ext k k' b E) (conj (get_loop_names_ext k k' b E)
        (conj (position_ext k k' b E) (conj (fun p => change_order_ext k k' p b E)
        (fun v => set_item_ext k k' v b E N1 N2))))))).
Qed.

Theorem C01_latest_spelling : forall k v b b',
  WF b -> set_item k v b = (b', Ret tt) ->
  dget str_eqb (lower k) (b_true b') = Some k /\
  forall k2, k2 <> lower k -> dget str_eqb k2 (b_true b') = dget str_eqb k2 (b_true b).
Proof. exact set_item_spelling. Qed.

Example C01_example : lower (u "_NAME") = lower (u "_Name") /\ u "_NAME" <> u "saves"
  /\ get_item (u "_NAME") ex_block = Ret (VStr (u "x"))
  /\ exists b', set_item (u "_NAME") (VStr (u "y")) ex_block = (b', Ret tt)
                /\ dget str_eqb (u "_name") (b_true b') = Some (u "_NAME").
Proof. split; [now_computed|split; [discriminate|split; [now_computed|]]]. eexists; split; now_computed. Qed.

(* ------------------------------------------------------------------ C02 *)
Theorem C02_read_your_write : forall k k' v b b',
  set_item k v b = (b', Ret tt) -> lower k' = lower k -> get_item k' b' = Ret v.
Proof. intros k k' v b b'. exact (set_item_read k v b b' k'). Qed.

(** No operation, successful or failing, changes the value of a dataname it does
    not mention. *)
Theorem C02_frame : forall o b k,
  ~ In (lower k) (map lower (touched o)) -> o <> OClear ->
  get_item k (fst (run_op o b)) = get_item k b.
Proof. intros o b k N C. exact (get_item_data k b _ (run_op_frame o b k N C)). Qed.

Theorem C02_delete : forall k k' b, reachable b -> lower k' = lower k ->
  snd (remove_item k b) = Ret tt /\ has_key k' (fst (remove_item k b)) = false.
Proof.
  intros k k' b R E. pose proof (C03_reachable_wf b R) as W.
  exact (conj (remove_item_ret k b W) (remove_item_gone k b k' W E)).
Qed.

Example C02_example :
  (exists b', set_item (u "_new") (VList [VStr (u "1"); VNum (u "2")]) ex_block = (b', Ret tt))
  /\ ~ In (lower (u "_s1")) (map lower (touched (OCreate [u "_a"; u "_Name"] 0))).
Proof. split; [eexists; now_computed|]. cbn. intuition discriminate. Qed.

(* ------------------------------------------------------------------ C04 *)
Theorem C04_locked_add_rejected : forall k v b,
  b_over b = false -> has_key k b = true -> exists e, set_item k v b = (b, Raise e).
Proof. exact locked_add. Qed.

(** Over every history that neither deletes, clears nor unlocks, every value of a
    locked block stays as it is. *)
Theorem C04_locked_history : forall os k b,
  Forall keeps_lock os -> b_over b = false -> has_key k b = true ->
  get_item k (run_ops os b) = get_item k b.
Proof. intros os k b. exact (run_ops_locked os k b). Qed.

Example C04_example : b_over (set_overwrite false ex_block) = false
  /\ has_key (u "_NAME") (set_overwrite false ex_block) = true
  /\ Forall keeps_lock [OAdd (u "_name") (VStr (u "z")); OCreate [u "_s1"; u "_s2"] 0;
                        OAddLoopItem [u "_a"] [VList [VStr (u "0")]]].
Proof. repeat split; repeat constructor. Qed.

(* ------------------------------------------------------------------ C05 *)
(** With overwriting enabled and unchanged settings, CreateLoop of distinct names
    succeeds exactly for loopable names, and a failing CreateLoop changes nothing. *)
Theorem C05_exact : forall names order b,
  WF b -> settings_current b -> b_over b = true -> distinct_names names ->
  (snd (create_loop names order true b) = Ret tt <-> loopable b names).
Proof. exact create_loop_iff. Qed.

Theorem C05_atomic : forall names order b e,
  WF b -> settings_current b -> distinct_names names ->
  snd (create_loop names order true b) = Raise e -> fst (create_loop names order true b) = b.
Proof. exact create_loop_atomic. Qed.

(** The guard holds in every block built without changing the name-length limit or
    the character set. *)
Theorem C05_guard_reachable : forall os ov m un,
  Forall admissible os -> Forall keeps_settings os ->
  settings_current (run_ops os (empty_block ov m un)).
Proof.
  intros os ov m un A K.
  exact (run_ops_current os _ (empty_wf ov m un) A K (fun k e H => ltac:(discriminate H))).
Qed.

Example C05_example :
  loopable ex_block [u "_s1"; u "_s2"] /\ distinct_names [u "_s1"; u "_s2"] /\
  ~ loopable ex_block [u "_a"; u "_s1"] /\ b_over ex_block = true /\ settings_current ex_block.
Proof.
  split; [right; intros n [<-|[<-|[]]]; eexists; split; now_computed|].
  split; [repeat constructor; cbn; intuition discriminate|].
  split.
  - intros [(r & H)|H].
    + destruct (H (u "_s1") (or_intror (or_introl eq_refl))) as (l & G & _). vm_compute in G. discriminate G.
    + destruct (H (u "_a") (or_introl eq_refl)) as (v & G & P). vm_compute in G. injection G as <-. discriminate.
  - split; [now_computed|]. apply C05_guard_reachable.
    + repeat (constructor; try exact I); try (cbn; intuition discriminate).
    + repeat constructor.
Qed.

(** When the character set was changed after a value was stored, a failing
    CreateLoop leaves the block half converted. *)
Theorem C05_atomic_refuted : exists b names e,
  reachable b /\ distinct_names names /\
  snd (create_loop names (-1) true b) = Raise e /\ fst (create_loop names (-1) true b) <> b.
Proof.
  exists (run_ops [OAdd (u "_x") (VStr (u "1")); OAdd (u "_y") (VStr [233%N]); OCharset false]
                  (empty_block true (-1) true)), [u "_x"; u "_y"], StarErr.
  split; [|split; [|split]].
  - eexists _, true, (-1)%Z, true. split; [|reflexivity]. repeat (constructor; try exact I).
  - repeat constructor; cbn; intuition discriminate.
  - now_computed.
  - intros E. apply (f_equal (get_item (u "_x"))) in E. vm_compute in E. discriminate.
Qed.

(* ------------------------------------------------------------------ C06 *)
Theorem C06_create_loop_effect : forall names order b b',
  WF b -> distinct_names names -> create_loop names order true b = (b', Ret tt) ->
  exists no, loop_created names order no b b'.
Proof. exact create_loop_effect. Qed.

Example C06_example : exists b', create_loop [u "_S1"; u "_s2"] 0 true ex_block = (b', Ret tt)
  /\ b_order b' = [OL 2; ON (u "_name"); OL 1]
  /\ get_item (u "_s2") b' = Ret (VList [VNum (u "3")]).
Proof. eexists. split; [now_computed|]. split; now_computed. Qed.

(* ------------------------------------------------------------------ C07 *)
Theorem C07_remove_effect : forall key b, WF b -> has_key key b = true ->
  snd (remove_item key b) = Ret tt /\ item_removed key b (fst (remove_item key b)).
Proof. exact remove_item_effect. Qed.

Theorem C07_remove_absent : forall key b, has_key key b = false -> remove_item key b = (b, Ret tt).
Proof. exact remove_item_absent. Qed.

Theorem C07_remove_twice : forall key b, WF b ->
  remove_item key (fst (remove_item key b)) = (fst (remove_item key b), Ret tt).
Proof. exact remove_item_twice. Qed.

Example C07_example : WF ex_block /\ has_key (u "_B") ex_block = true
  /\ b_loops (fst (remove_item (u "_B") ex_block)) = [(1%Z, [u "_a"])]
  /\ b_order (fst (remove_item (u "_a") (fst (remove_item (u "_B") ex_block))))
     = [ON (u "_name"); ON (u "_s1"); ON (u "_s2")].
Proof. split; [apply C03_reachable_wf, ex_reachable|]. computed. Qed.

(* ------------------------------------------------------------------ C08 *)
(** Exactly when AddLoopName succeeds: the loop exists and the new item is already
    in it, or both have the same python length. *)
Theorem C08_admission : forall old new b, WF b ->
  (snd (add_loop_name old new b) = Ret tt <->
   exists cols, get_loop_names old b = Ret cols /\
     (In (lower new) cols \/
      exists vo vn k, get_item old b = Ret vo /\ get_item new b = Ret vn /\
                      py_len vo = Ret k /\ py_len vn = Ret k)).
Proof. exact add_loop_name_iff. Qed.

Theorem C08_failure_unchanged : forall o n b e,
  snd (add_loop_name o n b) = Raise e -> fst (add_loop_name o n b) = b.
Proof. exact add_loop_name_atomic. Qed.

Theorem C08_effect : forall old new b cols, WF b ->
  get_loop_names old b = Ret cols -> ~ In (lower new) cols ->
  snd (add_loop_name old new b) = Ret tt -> name_looped old new b (fst (add_loop_name old new b)).
Proof. exact add_loop_name_effect. Qed.

Theorem C08_already_there : forall old new b cols, WF b ->
  get_loop_names old b = Ret cols -> In (lower new) cols -> add_loop_name old new b = (b, Ret tt).
Proof. exact add_loop_name_present. Qed.

(** A single text value whose number of characters equals the number of rows is
    admitted as a column. *)
Theorem C08_single_text_refuted : exists b old new s,
  reachable b /\ get_item new b = Ret (VStr s) /\ snd (add_loop_name old new b) = Ret tt /\
  get_loop_names old (fst (add_loop_name old new b)) = Ret [u "_a"; u "_b"; u "_t"].
Proof.
  exists (run_ops (ex_ops ++ [OAdd (u "_t") (VStr (u "zz"))]) (empty_block true (-1) false)),
         (u "_a"), (u "_t"), (u "zz").
  split.
  - eexists _, true, (-1)%Z, false. split; [|reflexivity].
    repeat (constructor; try exact I); try (cbn; intuition discriminate).
  - computed.
Qed.

Definition ex_block8 : block :=
  run_ops (ex_ops ++ [OAdd (u "_T") (VList [VStr (u "z"); VNum (u "0")])]) (empty_block true (-1) false).
Example C08_example : get_loop_names (u "_A") ex_block8 = Ret [u "_a"; u "_b"]
  /\ snd (add_loop_name (u "_A") (u "_t") ex_block8) = Ret tt
  /\ get_loop_names (u "_B") (fst (add_loop_name (u "_A") (u "_t") ex_block8)) = Ret [u "_a"; u "_b"; u "_t"].
Proof. computed. Qed.

(* ------------------------------------------------------------------ C09 *)
(** Proved for histories without AddLoopName/AddToLoop and without CreateLoop of an
    empty list; those two are the refutations below. *)
Theorem C09_no_empty_loop_partial : forall os ov m un,
  Forall admissible os -> Forall no_loop_shrink os ->
  no_empty_loop (run_ops os (empty_block ov m un)).
Proof.
  intros os ov m un A N.
  exact (run_ops_no_empty os _ (empty_wf ov m un) A N (fun k c (H : In (k, c) []) => False_ind _ H)).
Qed.

(** Moving the only column of a loop into another loop leaves an empty loop. *)
Theorem C09_addloopname_refuted : exists os k,
  Forall admissible os /\
  Forall (fun r => r = Ret tt) (snd (fold_left (fun s o => (fst (run_op o (fst s)), snd s ++ [snd (run_op o (fst s))]))
                                     os (empty_block true (-1) false, []))) /\
  In (k, []) (b_loops (run_ops os (empty_block true (-1) false))).
Proof.
  exists [ OAdd (u "_a") (VList [VStr (u "1")]); OAdd (u "_b") (VList [VStr (u "2")]);
           OCreate [u "_a"] (-1); OCreate [u "_b"] (-1); OAddLoopName (u "_a") (u "_b") ], 2%Z.
  split; [|split].
  - repeat (constructor; try exact I); try (cbn; intuition discriminate).
  - repeat constructor.
  - vm_compute. auto.
Qed.

Theorem C09_create_empty_refuted : exists b', create_loop [] (-1) true (empty_block true (-1) false) = (b', Ret tt)
  /\ ~ no_empty_loop b'.
Proof. eexists. split; [now_computed|]. intros H. apply (H 1%Z []); [|now_computed]. left. now_computed. Qed.

Example C09_example : Forall admissible ex_ops /\ Forall no_loop_shrink ex_ops.
Proof.
  split; repeat (constructor; try exact I); try (cbn; intuition discriminate).
Qed.

(* ------------------------------------------------------------------ C10 *)
Theorem C10_move_top_level : forall name pos b, WF b -> has_key name b = true -> find_loop name b = None ->
  exists b', change_item_order (ON name) pos b = (b', Ret tt)
    /\ moved oitem_eqb (ON (lower name)) pos (b_order b) (b_order b')
    /\ b' = set_order (b_order b') b.
Proof. exact reorder_top. Qed.

Theorem C10_move_column : forall name pos b cols, WF b -> get_loop_names name b = Ret cols ->
  exists b' cols', change_item_order (ON name) pos b = (b', Ret tt)
    /\ moved str_eqb (lower name) pos cols cols'
    /\ get_loop_names name b' = Ret cols'
    /\ (forall m, ~ In (lower m) cols -> get_loop_names m b' = get_loop_names m b)
    /\ b' = set_loops (b_loops b') b.
Proof. exact reorder_column. Qed.

Example C10_example : has_key (u "_NAME") ex_block = true /\ find_loop (u "_NAME") ex_block = None
  /\ b_order (fst (change_item_order (ON (u "_NAME")) 2 ex_block))
     = [OL 1; ON (u "_s1"); ON (u "_name"); ON (u "_s2")]
  /\ get_loop_names (u "_B") (fst (change_item_order (ON (u "_B")) 0 ex_block)) = Ret [u "_b"; u "_a"].
Proof. computed. Qed.

Theorem C10_move_loop_fails : forall b k pos, b_loops b <> [] ->
  change_item_order (OL k) pos b = (b, Raise AttributeErr).
Proof. intros b k pos H. cbn. destruct (b_loops b); [congruence|now_computed]. Qed.
(** A loop (given by its number, as the documentation allows) can not be moved: the
    call raises AttributeError as soon as the block has a loop. *)
Theorem C10_move_loop_refuted : exists b k pos, reachable b /\ In (OL k) (b_order b) /\
  change_item_order (OL k) pos b = (b, Raise AttributeErr).
Proof. exists ex_block, 1%Z, 0%Z. split; [apply ex_reachable|]. split; [vm_compute; tauto|now_computed]. Qed.

(* ------------------------------------------------------------------ C16 *)
Theorem C16_ascii_names : forall m n,
  check_data_name m false n = Ret tt <->
  (exists r, n = 95%N :: r) /\ ((m <= 0)%Z \/ (Z.of_nat (length n) <= m)%Z) /\ Forall printing_ascii n.
Proof. exact check_name_ascii. Qed.

Theorem C16_unicode_names : forall m n, (forall c, In c n -> (c <= 0xFFFF)%N) ->
  (check_data_name m true n = Ret tt <->
   (exists r, n = 95%N :: r) /\ ((m <= 0)%Z \/ (Z.of_nat (length n) <= m)%Z) /\ Forall unicode_name_char n).
Proof. exact check_name_unicode. Qed.

(** Beyond the basic plane allowed characters are refused (U+1F60E is one). *)
Theorem C16_astral_refuted : exists n,
  (exists r, n = 95%N :: r) /\ Forall unicode_name_char n /\ check_data_name (-1) true n <> Ret tt.
Proof.
  exists [95%N; 0x1F60E%N]. split; [eauto|]. split; [|discriminate].
  repeat constructor; try lia; intros [H|H]; try lia; discriminate.
Qed.

Example C16_example : check_data_name 75 false (u "_atom_site.Fract_x") = Ret tt
  /\ check_data_name 5 false (u "_abcde") = Raise StarErr /\ check_data_name 0 true [95%N; 233%N] = Ret tt.
Proof. computed. Qed.

(* ------------------------------------------------------------------ C17 *)
Theorem C17_text_values : forall k s b, check_data_name (b_max b) (b_uni b) k = Ret tt ->
  (has_key k b = true -> b_over b = true) ->
  (snd (set_item k (VStr s) b) = Ret tt <-> Forall (text_char (b_uni b)) s).
Proof.
  intros k s b C O. exact (iff_trans (set_item_iff k (VStr s) b C O) (acceptable_text (b_uni b) s)).
Qed.

Theorem C17_text_columns : forall k l b, check_data_name (b_max b) (b_uni b) k = Ret tt ->
  (has_key k b = true -> b_over b = true) ->
  (snd (set_item k (VList (map VStr l)) b) = Ret tt <->
   l <> [] /\ Forall (Forall (text_char (b_uni b))) l).
Proof.
  intros k l b C O. exact (iff_trans (set_item_iff k _ b C O) (acceptable_column (b_uni b) l)).
Qed.

Theorem C17_rejected_unchanged : forall k v b e,
  snd (set_item k v b) = Raise e -> fst (set_item k v b) = b.
Proof.
  intros k v b e H. exact (match set_item k v b as p return p = set_item k v b -> snd p = Raise e -> fst p = b with
    | (b', r) => fun E (H' : r = Raise e) => set_item_err k v b b' e (eq_trans (eq_sym E) (f_equal (pair b') H'))
    end eq_refl H).
Qed.

(** Texts inside a nested list are not looked at. *)
Theorem C17_nested_refuted : exists k b c,
  ~ text_char (b_uni b) c /\ snd (set_item k (VList [VList [VStr [c]]]) b) = Ret tt.
Proof.
  exists (u "_a"), (empty_block true (-1) false), 1%N. split; [|reflexivity].
  cbn. unfold cif1_text_char. intros H. lia.
Qed.

Example C17_example : check_data_name (b_max ex_block) (b_uni ex_block) (u "_z") = Ret tt
  /\ snd (set_item (u "_z") (VStr (u "any text;#'")) ex_block) = Ret tt
  /\ snd (set_item (u "_z") (VStr [200%N]) ex_block) = Raise StarErr.
Proof. computed. Qed.

(** One command for all the theorems above: what it lists is the union of what they
    depend on. *)
Definition block_theorems :=
  (C03_one_place,
   C03_reachable_wf,
   C03_repeated_names_refuted,
   C01_case_insensitive,
   C01_latest_spelling,
   C02_read_your_write,
   C02_frame,
   C02_delete,
   C04_locked_add_rejected,
   C04_locked_history,
   C05_exact,
   C05_atomic,
   C05_guard_reachable,
   C05_atomic_refuted,
   C06_create_loop_effect,
   C07_remove_effect,
   C07_remove_absent,
   C07_remove_twice,
   C08_admission,
   C08_failure_unchanged,
   C08_effect,
   C08_already_there,
   C08_single_text_refuted,
   C09_no_empty_loop_partial,
   C09_addloopname_refuted,
   C09_create_empty_refuted,
   C10_move_top_level,
   C10_move_column,
   C10_move_loop_refuted, C10_move_loop_fails,
   C16_ascii_names,
   C16_unicode_names,
   C16_astral_refuted,
   C17_text_values,
   C17_text_columns,
   C17_rejected_unchanged,
   C17_nested_refuted).
Print Assumptions block_theorems.
