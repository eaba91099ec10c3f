(** C68, C69: blocks that check their items against a dictionary, and the deprecated
    way of adding items. *)
From Coq Require Import String Ascii List NArith ZArith Bool.
From Verif Require Import PyBase StarBlockModel StarBlockSpec StarBlockProofs2 ValidateModel ValidBlockModel ValidBlockSpec ValidBlockProofs PropertiesValidate.
Import ListNotations.
Open Scope string_scope.
Open Scope list_scope.
Open Scope nat_scope.

(** ** C68: ValidCifBlock *)
(** An item is added exactly if its checks pass, and then as to any other block. *)
Theorem C68_add_exact d k v pre b b' :
  valid_add d k v pre b = (b', Ret tt) <-> (item_ok d k v /\ global_ok d k v b) /\ add_item k v pre b = (b', Ret tt).
Proof. exact (valid_add_exact d k v pre b b'). Qed.
(** A refused item changes nothing. *)
Theorem C68_add_atomic d k v pre b b' e : valid_add d k v pre b = (b', Raise e) -> b' = b.
Proof. exact (valid_add_err d k v pre b b' e). Qed.
(** A failing check of a name of the dictionary refuses the item. *)
Theorem C68_add_refuses d k v pre b : v_in d k = true ->
  (forall n f, In (n, f) (v_item d) -> exists r, f k v = Ret r) ->
  (exists n f r, In (n, f) (v_item d) /\ f k v = Ret r /\ is_false r) -> valid_add d k v pre b = (b, Raise CifErr).
Proof. exact (valid_add_refuses d k v pre b). Qed.
(** Whatever is done with a block, its items keep passing the checks of single
    items. *)
Theorem C68_items_stay_valid d os b : case_blind d -> sound d b -> sound d (run_vops d os b).
Proof. intros C. exact (run_vops_keeps d os C b). Qed.
Theorem C68_empty_sound d ov m un : sound d (empty_block ov m un).
Proof. split; [constructor|]. intros k v G. unfold get_item, get_full, empty_block in G. cbn [b_data dget] in G. destruct (str_eqb k (u "saves")); discriminate G. Qed.
(** The constructor accepts exactly the blocks that pass all checks. *)
Theorem C68_init_exact d b b' : Forall (fun kl => snd kl <> []) (b_loops b) ->
  (valid_init d b = Ret b' <-> b' = b /\ block_ok d b).
Proof. exact (valid_init_exact d b b'). Qed.
(** Deleting an item with del, and AddToLoop, always fail. *)
Theorem C68_delete_never d k b : has_key k b = true -> exists e, valid_del d k b = (b, Raise e).
Proof. exact (valid_del_present d k b). Qed.
Theorem C68_add_to_loop_never d n kvs b : exists e, valid_add_to_loop d n kvs b = (b, Raise e).
Proof. exact (valid_to_loop d n kvs b). Qed.

(** A dictionary with its checks. *)
Definition vd (d : cifdic) : vdic := mkV (fun n => tmem n (map (fun kt => (fst kt, VNone)) (d_defs d)))
  [(u "validate_item_type", validate_item_type d); (u "validate_item_enum", validate_item_enum d); (u "validate_enum_range", validate_enum_range d)]
  [(u "validate_exclusion", fun n _ t p => validate_exclusion d n t p); (u "validate_parent", fun n v t p => validate_parent d n v t p [])]
  [(u "validate_loop_key", validate_loop_key d)] [].
Lemma vd_case_blind d : case_blind (vd d).
Proof.
  intros k k' E. split; [unfold vd, tmem; cbn [v_in]; unfold tmem, tget; now rewrite E|].
  intros n f v [H|[H|[H|[]]]]; injection H as <- <-; unfold validate_item_type, validate_item_enum, validate_enum_range, dic_get; now rewrite E.
Qed.
Definition enum_d : cifdic := ddl2 []
  [(u "_c.x", [(u "_item.category_id", T "c"); (u "_item_enumeration.value", L ["a"; "b"])]);
   (u "_c.y", [(u "_item.category_id", T "c"); (u "_item_related.function_code", L ["alternate_exclusive"]); (u "_item_related.related_name", L ["_c.z"])]);
   (u "_c.z", [(u "_item.category_id", T "c")]);
   (u "_d.w", [(u "_item.category_id", T "d")]); (u "_d.k", [(u "_item.category_id", T "d")]);
   (u "c", []); (u "d", [(u "_category_mandatory.name", L ["_d.k"])])].
Definition new_block : block := empty_block true 75 false.
Definition edits : list vop := [VSet (u "_C.x") (L ["a"; "b"]); VSet (u "_c.X") (L ["a"; "q"]); VSet (u "_c.y") (L ["1"; "2"]); VLoop [u "_c.x"; u "_c.y"] (-1); VSet (u "_c.w") (T "any"); VDel (u "_c.y"); VRemove (u "_c.y")].
Example C68_example :
  map (fun o => snd (run_vop (vd enum_d) o (run_vops (vd enum_d) (firstn 1 edits) new_block))) (skipn 1 edits)
    = [Raise CifErr; Ret tt; Raise KeyErr; Ret tt; Ret tt; Ret tt]
  /\ snd (run_vop (vd enum_d) (VDel (u "_c.y")) (run_vops (vd enum_d) (firstn 5 edits) new_block)) = Raise IndexErr
  /\ view (run_vops (vd enum_d) edits new_block) = Ret [(u "_c.x", L ["a"; "b"]); (u "_c.w", T "any")]
  /\ b_loops (run_vops (vd enum_d) edits new_block) = [(1%Z, [u "_c.x"])].
Proof. repeat split; vm_compute; reflexivity. Qed.
Example C68_meets : exists d k v b b', case_blind d /\ sound d b /\ v_in d k = true /\ item_ok d k v /\ global_ok d k v b
  /\ add_item k v false b = (b', Ret tt) /\ length (b_keys b) = 1 /\ length (v_item d) = 3 /\ length (v_global d) = 2
  /\ valid_init d b' = Ret b'.
Proof.
  exists (vd enum_d), (u "_c.y"), (T "1"), (run_vops (vd enum_d) (firstn 1 edits) new_block). eexists.
  assert (H : valid_add (vd enum_d) (u "_c.y") (T "1") false (run_vops (vd enum_d) (firstn 1 edits) new_block)
    = (fst (valid_add (vd enum_d) (u "_c.y") (T "1") false (run_vops (vd enum_d) (firstn 1 edits) new_block)), Ret tt)) by (vm_compute; reflexivity).
  apply C68_add_exact in H as ((A & B) & E).
  split; [apply vd_case_blind|]. split; [apply C68_items_stay_valid; [apply vd_case_blind|apply C68_empty_sound]|].
  split; [vm_compute; reflexivity|]. split; [exact A|]. split; [exact B|]. split; [exact E|].
  repeat (split; [vm_compute; reflexivity|]). vm_compute. reflexivity.
Qed.
Example C68_meets_refusal : exists d k v, v_in d k = true /\ (forall n f, In (n, f) (v_item d) -> exists r, f k v = Ret r)
  /\ (exists n f r, In (n, f) (v_item d) /\ f k v = Ret r /\ is_false r).
Proof.
  exists (vd enum_d), (u "_c.x"), (L ["a"; "q"]). split; [vm_compute; reflexivity|]. split.
  - intros n f [H|[H|[H|[]]]]; injection H as <- <-; eexists; vm_compute; reflexivity.
  - exists (u "validate_item_enum"), (validate_item_enum enum_d). eexists. split; [right; now left|].
    split; [vm_compute; reflexivity|]. unfold is_false. eauto.
Qed.
(** Adding an item only checks that item: a block that was valid, and an item that is
    accepted, can give a block that is not valid. *)
Theorem C68_validity_kept_refuted : exists d b k v b',
  valid_init d b = Ret b /\ valid_add d k v false b = (b', Ret tt) /\ valid_init d b' = Raise CifErr.
Proof.
  exists (vd enum_d), (run_vops (vd enum_d) [VSet (u "_c.y") (T "1")] new_block), (u "_c.z"), (T "2"). eexists.
  split; [vm_compute; reflexivity|]. split; [vm_compute; reflexivity|]. vm_compute. reflexivity.
Qed.
(** CreateLoop is not checked: a loop can be made without the key of its category. *)
Theorem C68_loops_unchecked_refuted : exists d b ns b',
  valid_init d b = Ret b /\ valid_create_loop d ns (-1) b = (b', Ret tt) /\ valid_init d b' = Raise CifErr.
Proof.
  exists (vd enum_d), (run_vops (vd enum_d) [VSet (u "_c.z") (L ["1"]); VSet (u "_d.w") (L ["2"])] new_block), [u "_d.w"; u "_c.z"]. eexists.
  split; [vm_compute; reflexivity|]. split; [vm_compute; reflexivity|]. vm_compute. reflexivity.
Qed.
(** A name outside the dictionary may be added, but a block having it cannot be
    given to the constructor. *)
Theorem C68_unknown_name_refuted : exists d k v b',
  valid_add d k v false new_block = (b', Ret tt) /\ valid_init d b' = Raise KeyErr.
Proof.
  exists (vd enum_d), (u "_other"), (T "1"). eexists. split; vm_compute; reflexivity.
Qed.

(** ** C69: AddCifItem *)
(** A list of values becomes a loop of one column. *)
Theorem C69_list_item name l b b' : WF b -> cif_add_cif_item name (VList l) b = (b', Ret tt) ->
  get_item name b' = Ret (VList l) /\ get_loop_names name b' = Ret [lower name].
Proof. exact (cif_list_item name l b b'). Qed.
(** A table becomes the list of its keys. *)
Theorem C69_table_item name m b b' : WF b -> cif_add_cif_item name (VDict m) b = (b', Ret tt) ->
  get_item name b' = Ret (VList (map (fun kv => VStr (fst kv)) m)).
Proof. exact (cif_table_item name m b b'). Qed.
(** Several names with as many columns become one loop, each name with its column. *)
Theorem C69_columns names cols b b' : WF b -> distinct_names names -> length names = length cols ->
  (forall c, In c cols -> is_plain_list c = true) -> cif_add_loop names cols b = (b', Ret tt) ->
  Forall2 (fun n c => get_item n b' = Ret c) names cols /\ (forall n, In n names -> get_loop_names n b' = Ret (map lower names)).
Proof. exact (cif_columns names cols b b'). Qed.
Example C69_meets_columns : exists names cols b b', WF b /\ distinct_names names /\ length names = length cols /\
  (forall c, In c cols -> is_plain_list c = true) /\ cif_add_loop names cols b = (b', Ret tt) /\ length cols = 2
  /\ snd (cif_add_cif_item (u "_t") (VDict [(u "k", T "1")]) b) = Ret tt.
Proof.
  exists [u "_A"; u "_b"], [L ["1"; "2"]; L ["3"; "4"]], new_block. eexists. split; [apply StarBlockProofs2.empty_wf|].
  split; [vm_compute; constructor; [intros [X|[]]; discriminate X|constructor; [intros []|constructor]]|]. split; [reflexivity|].
  split; [intros c [<-|[<-|[]]]; reflexivity|]. split; [vm_compute; reflexivity|]. split; vm_compute; reflexivity.
Qed.
(** A text is taken apart into its characters. *)
Theorem C69_text_refuted : exists name s b',
  cif_add_cif_item name (VStr s) new_block = (b', Ret tt) /\ get_item name b' <> Ret (VStr s) /\ get_item name b' = Ret (L ["1"; "."; "5"]).
Proof.
  exists (u "_a"), (u "1.5"). eexists. split; [vm_compute; reflexivity|]. split; [|vm_compute; reflexivity].
  vm_compute. discriminate.
Qed.
(** ... so that a text allowed by the dictionary is refused. *)
Theorem C69_valid_text_refuted : exists d name v b,
  item_ok d name v /\ global_ok d name v b /\ snd (valid_add d name v false b) = Ret tt /\ snd (valid_add_cif_item d name v b) = Raise CifErr.
Proof.
  exists (vd (ddl2 [] [(u "_c.x", [(u "_item_enumeration.value", L ["yes"; "no"])])])), (u "_c.x"), (T "yes"), new_block.
  match goal with |- item_ok ?d ?k ?v /\ global_ok _ _ _ ?b /\ _ =>
    assert (H : valid_add d k v false b = (fst (valid_add d k v false b), Ret tt)) by (vm_compute; reflexivity);
    pose proof H as H2; apply C68_add_exact in H2 as ((A & B) & _); rewrite H end.
  split; [exact A|]. split; [exact B|]. split; [reflexivity|]. vm_compute. reflexivity.
Qed.
Example C69_meets : exists name l b b', WF b /\ cif_add_cif_item name (VList l) b = (b', Ret tt) /\ length l = 2.
Proof.
  exists (u "_A"), [T "1"; T "2"], new_block. eexists. split; [apply StarBlockProofs2.empty_wf|]. split; vm_compute; reflexivity.
Qed.

Definition validblock_theorems := (C68_add_exact, C68_add_atomic, C68_add_refuses, C68_items_stay_valid, C68_empty_sound, C68_init_exact, C68_delete_never, C68_add_to_loop_never,
  C68_validity_kept_refuted, C68_loops_unchecked_refuted, C68_unknown_name_refuted, C69_list_item, C69_table_item, C69_columns, C69_text_refuted, C69_valid_text_refuted).
Print Assumptions validblock_theorems.
