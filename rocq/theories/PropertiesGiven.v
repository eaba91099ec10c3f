(** C116: files written in an order given by the caller. *)
From Coq Require Import String Ascii List NArith ZArith Bool Permutation.
From Verif Require Import PyBase PyFacts StarBlockModel ScanModel OrderModel WriteModel CollectionModel FileModel GivenModel
  CollectionSpec FileSpec GivenSpec CollectionProofs CollectionProofs2 CollectionProofs3 CollectionProofs4 FileProofs3 GivenProofs GivenProofs2 PropertiesFile.
Import ListNotations.
Open Scope nat_scope.

(** A list that has, with every frame, its data block and what is between them: exactly the
    blocks listed are written, and the text is read back as these blocks in the order of
    the list; the warning names the others. *)
Theorem C116_reads maxout maxn c order after comment : file_ready maxout maxn c -> (forall x, In x order -> In x (ckeys c)) -> NoDup order -> closed_list order c -> comment_text comment ->
  exists text left, write_given maxout [] (Some order) after comment c = Ret (text, left) /\ (forall x, In x left <-> In x (ckeys c) /\ ~ In x order) /\
  forall o sc un, text <> [] -> ~ In 26%N text -> short_lines (ro_maxlength o) text -> ro_cbf o = false -> ro_maxn o = maxn ->
    (ro_grammar o = Some (c_gram c) \/
     ro_grammar o = None /\ (c_gram c = G20 \/ c_gram c = G11 /\ firstn 10 text <> u "#\#CIF_2.0")) ->
    exists c', read_star o text (new_coll (c_std c) sc un) = (c', Ret true) /\
      CWF c' /\ visible_ok c' /\ c_gram c' = c_gram c /\ c_std c' = c_std c /\ c_scope c' = sc /\ same_listed order c c'.
Proof. exact (given_reads maxout maxn c order after comment). Qed.
(** Any list of names without repetitions: the data blocks in its order, each with the
    frames below it in its order.  Frames whose data block is not listed are not written;
    the warning names everything that is not written. *)
Theorem C116_selected maxout hs c order : CWF c -> (forall x, In x order -> In x (ckeys c)) -> NoDup order -> c_gram c <> GS2 ->
  exists tops frames left, without (fun x => ~ root c x) order tops /\ (forall r, In r tops -> without (fun x => ~ below c r x) order (frames r)) /\
    (forall x, In x left <-> In x (ckeys c) /\ ~ placed c order x) /\
    forall after comment, write_given maxout hs (Some order) after comment c =
      obind (write_secs maxout hs (concat (map (fun r => section (c_std c) r (frames r)) tops)) c) (fun t => Ret (file_head (c_gram c) comment ++ t, left)).
Proof. intros W H. exact (given_selected maxout hs c W order H). Qed.
(** Without a list all is written in the order of the file, and there is no warning. *)
Theorem C116_default maxout hs c after comment : CWF c -> c_gram c <> GS2 ->
  write_given maxout hs None after comment c = obind (write_out maxout hs comment c) (fun t => Ret (t, [])).
Proof.
  intros W G. assert (forall x, In x (c_order c) -> In x (ckeys c)) as Ho by (intros x; now rewrite (in_corder c W)).
  assert (set_corder (c_order c) c = c) as Es by now destruct c.
  destruct (given_plan c W (c_order c) Ho) as (tops & frames & Et & Ew & Ht & Hf & Hp & Hn & _). specialize (Hn (order_NoDup c W)). rewrite Es in Ew.
  assert (write_plan c = Ret (concat (map (fun r => section (c_std c) r (frames r)) tops))) as Ep by (unfold write_plan; now rewrite Et).
  assert (forall x, In x (map fst (c_child c)) -> In x (concat (map (fun r => r :: frames r) tops))) as All.
  { intros x Hx. apply Hp. apply (closed_placed c W (c_order c) Ho); [|apply (in_corder c W), (in_table c W), Hx]. intros p y _ I. apply (in_corder c W). exact (cw_parents _ W p y I). }
  assert (take_names (sec_keys (concat (map (fun r => section (c_std c) r (frames r)) tops))) (map fst (c_child c)) = Ret []) as Tk.
  { rewrite plan_sec_keys, take_all; [|exact (table_NoDup c W)|exact Hn|].
    - f_equal. revert All. generalize (concat (map (fun r => r :: frames r) tops)) as ks. clear. induction (map fst (c_child c)) as [|x l IH]; intros ks All; [reflexivity|]. cbn [filter].
      rewrite (proj2 (mem_In str_eqb str_eqb_spec x ks)) by (apply All; now left). cbn [negb]. apply IH. intros y Hy. apply All. now right.
    - intros x Hx. apply Hp in Hx as [Hx _]. apply (in_table c W). auto. }
  unfold write_given. rewrite Et. cbn [obind]. rewrite Es, Ew. cbn [obind]. unfold write_out. rewrite Ep. cbn [obind].
  rewrite (listed_all maxout hs _ _ _ _ Tk). destruct (c_gram c); try congruence; now destruct (write_secs maxout hs _ c).
Qed.
(** A name that is not a key of the file is refused. *)
Theorem C116_unknown maxout hs c order after comment : CWF c -> (exists x, In x order /\ ~ In x (ckeys c)) -> write_given maxout hs (Some order) after comment c = Raise KeyErr.
Proof.
  intros W (x & Hx & Nx). unfold write_given. replace (top_blocks order (c_child c)) with (@Raise (list str) KeyErr); [reflexivity|]. symmetry.
  assert (dget str_eqb x (c_child c) = None) as E. { apply (dget_None str_eqb str_eqb_spec). intros H. apply Nx. now apply (in_table c W). }
  induction order as [|y order IH]; [destruct Hx|]. cbn [top_blocks]. destruct Hx as [->|Hx]; [now rewrite E|]. rewrite (IH Hx). now destruct (dget str_eqb y (c_child c)).
Qed.
(** A name that is listed twice, and is written, is refused. *)
Theorem C116_twice maxout hs c order x after comment : CWF c -> (forall x, In x order -> In x (ckeys c)) -> c_gram c <> GS2 -> listed_twice x order -> placed c order x ->
  (exists e, write_given maxout hs (Some order) after comment c = Raise e) /\
  (c_std c <> StdDic -> (forall k b, c_get k c = Ret b -> exists t, print_block (c_gram c) maxout hs b = Ret t) ->
   write_given maxout hs (Some order) after comment c = Raise ValueErr).
Proof. intros W H. exact (given_twice maxout hs c W order H x after comment). Qed.

(** ** Examples: the file of C52, with [deep] in [Inner] in [Block_1], and [Other]. *)
Definition ex_list : list str := [u "other"; u "inner"; u "block_1"].
Example C116_meets : file_ready 2048 0 ex_coll /\ (forall x, In x ex_list -> In x (ckeys ex_coll)) /\ NoDup ex_list /\ closed_list ex_list ex_coll /\ ~ (forall x, In x (ckeys ex_coll) -> In x ex_list)
  /\ exists text c', write_given 2048 [] (Some ex_list) None [] ex_coll = Ret (text, [u "deep"])
    /\ read_star (ROpts None 2048 false 0) text (new_coll StdCif Dictionary true) = (c', Ret true) /\ c_order c' = [u "other"; u "block_1"; u "inner"].
Proof.
  split; [exact ex_ready|]. split; [intros x Hx; apply smem_In; destruct Hx as [<-|[<-|[<-|[]]]]; vm_compute; reflexivity|].
  split; [repeat constructor; cbn; intuition discriminate|]. split.
  { intros p x Hx (i & H). assert (c_child ex_coll = [(u "block_1", PC (u "Block_1") None); (u "inner", PC (u "Inner") (Some (u "block_1")));
      (u "deep", PC (u "deep") (Some (u "inner"))); (u "other", PC (u "Other") None)]) as Ec by (vm_compute; reflexivity). rewrite Ec in H.
    destruct H as [H|[H|[H|[H|[]]]]]; try discriminate H; injection H as Ex Ei Ep; subst; [right; right; now left|]. destruct Hx as [X|[X|[X|[]]]]; discriminate X. }
  split. { intros H. assert (In (u "deep") ex_list) as X by (apply H; vm_compute; tauto). destruct X as [X|[X|[X|[]]]]; discriminate X. }
  eexists _, _. split; [vm_compute; reflexivity|]. split; [vm_compute; reflexivity|]. vm_compute. reflexivity.
Qed.
Example C116_meets_errors : (exists order x, (forall x, In x order -> In x (ckeys ex_coll)) /\ listed_twice x order /\ placed ex_coll order x /\ write_given 2048 [] (Some order) None [] ex_coll = Raise ValueErr)
  /\ exists order x, In x order /\ ~ In x (ckeys ex_coll).
Proof.
  split.
  - exists [u "other"; u "other"], (u "other"). split; [intros x [<-|[<-|[]]]; vm_compute; tauto|]. split; [exists [], [], []; reflexivity|]. split; [|vm_compute; reflexivity].
    split; [now left|left]. exists (u "Other"). vm_compute. tauto.
  - exists [u "Other"], (u "Other"). split; [now left|]. vm_compute. intuition discriminate.
Qed.

(** A name with capitals, by which the block can be looked up, is refused in the list. *)
Theorem C116_capitals_refuted : exists c order b, CWF c /\ order = [u "Other"] /\ c_get (u "Other") c = Ret b /\ write_given 2048 [] (Some order) None [] c = Raise KeyErr.
Proof. exists ex_coll, [u "Other"], ex_stored. split; [exact (proj1 ex_coll_ok)|]. split; [reflexivity|]. split; vm_compute; reflexivity. Qed.
Definition one_item (n v : string) : block := fst (add_item (u n) (VStr (u v)) false (empty_block true 75 false)).
Definition small_file (g : grammar) : coll := run_cops [KNew (u "a") (one_item "_x" "1") true None; KNew (u "f") (one_item "_y" "2") true (Some (u "a")); KGrammar g] (new_coll StdCif Instance false).
Definition pad : str := repeat 32%N 38.
(** saves_after does nothing: the frame comes before the item after which it is to come. *)
Theorem C116_after_refuted : exists c name text, c = small_file G11 /\ name = u "_x" /\ write_given 2048 [] None (Some name) [] c = Ret (text, [])
  /\ text = nl1 ++ u "data_a" ++ nl1 ++ nl1 ++ nl1 ++ u "save_f" ++ nl1 ++ nl1 ++ u "_y" ++ pad ++ u "2" ++ nl1 ++ nl1 ++ u "save_" ++ nl1 ++ nl1 ++ u "_x" ++ pad ++ u "1".
Proof. eexists _, _, _. split; [reflexivity|]. split; [reflexivity|]. split; vm_compute; reflexivity. Qed.
(** With nested save frames the warning names all frames, although they are written. *)
Theorem C116_nested_warning_refuted : exists c text p q, c = small_file GS2 /\ write_given 2048 [] None None [] c = Ret (text, [u "f"]) /\ text = p ++ u "save_f" ++ q.
Proof.
  eexists _, _, (nl1 ++ u "data_a" ++ nl1 ++ nl1 ++ nl1), _. split; [reflexivity|]. split; [vm_compute; reflexivity|].
  exact (eq_refl (nl1 ++ u "data_a" ++ nl1 ++ nl1 ++ nl1 ++ u "save_f" ++ nl1 ++ nl1 ++ u "_y" ++ pad ++ u "2" ++ nl1 ++ u "save_" ++ nl1 ++ nl1 ++ u "_x" ++ pad ++ u "1")).
Qed.

Definition given_theorems := (C116_reads, C116_selected, C116_default, C116_unknown, C116_twice, C116_capitals_refuted, C116_after_refuted, C116_nested_warning_refuted).
Print Assumptions given_theorems.
