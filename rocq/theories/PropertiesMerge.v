(** Properties of merging blocks: C40. *)
From Coq Require Import String Ascii List NArith ZArith Bool Lia Permutation.
From Verif Require Import PyBase PyFacts StarBlockModel LoopModel ReadModel MergeModel StarBlockSpec LoopSpec ReadSpec MergeSpec
  StarBlockProofs StarBlockProofs2 StarBlockProofs6 ReadProofs2 MergeProofs PropertiesWrite.
Import ListNotations.
Open Scope nat_scope.

(** A common dataname that is not excepted is never merged in strict mode. *)
Theorem C40_strict_refuses : forall a nb exc n, WF nb -> In n (b_keys nb) -> In n (b_keys a) -> ~ In n exc ->
  exists e, snd (block_merge MStrict exc nb a) = Raise e.
Proof.
  intros a nb exc n Wn Hn Ha Hx. destruct (strict_items_common exc (b_keys nb) nb n Hn (wf_low nb Wn n Hn) Hx a Ha) as (e & E).
  unfold block_merge, loops_and_case. destruct (strict_items exc (b_keys nb) nb a) as [b1 [|e']]; [discriminate|]. cbn. eauto.
Qed.
(** Otherwise the result is the union. *)
Theorem C40_strict_union : forall a nb exc b', WF a -> WF nb -> proper_loops nb -> (forall n, In n exc -> ~ looped_in nb n) ->
  block_merge MStrict exc nb a = (b', Ret tt) ->
  (forall n, In n (b_keys nb) -> In n (b_keys a) -> In n exc) /\ block_merged (fun n => ~ In n exc) a nb b' /\
  ((forall n, In n exc -> In n (b_keys nb) -> In n (b_keys a)) -> WF b').
Proof. intros a nb exc b'. exact (strict_merge_ok exc nb a b'). Qed.
(** Exactly when: for items that the old block accepts. *)
Theorem C40_strict_exact : forall a nb exc, WF a -> WF nb -> proper_loops nb -> accepts a nb -> (forall n, In n exc -> ~ looped_in nb n) ->
  ((exists n, In n (b_keys nb) /\ In n (b_keys a) /\ ~ In n exc) -> snd (block_merge MStrict exc nb a) = Raise StarErr) /\
  ((forall n, In n (b_keys nb) -> In n (b_keys a) -> In n exc) -> exists b', block_merge MStrict exc nb a = (b', Ret tt)).
Proof. intros a nb exc. exact (strict_merge_total exc nb a). Qed.
(** Replace mode: the incoming values win, all others stay. *)
Theorem C40_replace : forall a nb exc b', WF a -> WF nb -> proper_loops nb -> block_merge MReplace exc nb a = (b', Ret tt) ->
  block_merged (fun _ => True) a nb b' /\ WF b'.
Proof. intros a nb exc b'. exact (replace_merge_ok exc nb a b'). Qed.
Theorem C40_replace_returns : forall a nb exc, WF a -> WF nb -> proper_loops nb -> accepts a nb -> b_over a = true ->
  exists b', block_merge MReplace exc nb a = (b', Ret tt).
Proof. intros a nb exc. exact (replace_merge_total exc nb a). Qed.

(** ** Refuted *)
Definition item_block (l : list (str * value)) : block := fst (update_items l (empty_block true 0 false)).
(** Strict mode copies datanames before it finds a common one. *)
Theorem C40_strict_atomic_refuted : exists a nb, WF a /\ WF nb /\ proper_loops nb /\ accepts a nb /\
  snd (block_merge MStrict [] nb a) = Raise StarErr /\ has_key (u "_b") a = false /\ has_key (u "_b") (fst (block_merge MStrict [] nb a)) = true.
Proof.
  exists (item_block [(u "_a", VStr (u "1"))]), (item_block [(u "_b", VStr (u "2")); (u "_a", VStr (u "3"))]).
  split; [apply update_items_wf, empty_wf|]. split; [apply update_items_wf, empty_wf|]. split; [intros k cols []|]. split.
  - intros n [<-|[<-|[]]]; (split; [vm_compute; reflexivity|]); (eexists; split; [vm_compute; reflexivity|]); (split; [eexists; vm_compute; reflexivity|vm_compute; reflexivity]).
  - split; [vm_compute; reflexivity|]. split; vm_compute; reflexivity.
Qed.
(** The excepted datanames are not spared in replace mode. *)
Theorem C40_replace_excepted_refuted : exists a nb exc b', block_merge MReplace exc nb a = (b', Ret tt) /\ In (u "_name") exc /\
  get_item (u "_name") b' <> get_item (u "_name") a.
Proof.
  exists (item_block [(u "_name", VStr (u "1"))]), (item_block [(u "_name", VStr (u "2"))]), [u "_name"]. eexists.
  split; [vm_compute; reflexivity|]. split; [now left|]. vm_compute. discriminate.
Qed.
(** Replace mode raises on the first common dataname of a block that does not allow
    overwriting, such as every block read from a file. *)
Definition read_item : block := fst (read_block [Kv (u "_a") (VStr (u "1"))] (empty_block false 0 false)).
Theorem C40_replace_read_refuted : exists nb, snd (read_block [Kv (u "_a") (VStr (u "1"))] (empty_block false 0 false)) = Ret tt
  /\ accepts read_item nb /\ proper_loops nb /\ snd (block_merge MReplace [] nb read_item) = Raise StarErr.
Proof.
  exists (item_block [(u "_a", VStr (u "2"))]). split; [vm_compute; reflexivity|]. split; [|split; [intros k cols []|vm_compute; reflexivity]].
  intros n [<-|[]]; (split; [vm_compute; reflexivity|]); (eexists; split; [vm_compute; reflexivity|]); (split; [eexists; vm_compute; reflexivity|vm_compute; reflexivity]).
Qed.
(** A single value that replaces a column leaves a loop that is not a table. *)
Definition looped_block (l : list (str * value)) : block := fst (create_loop (map fst l) (-1) true (item_block l)).
Theorem C40_replace_column_refuted : exists a nb b', proper_loops a /\ proper_loops nb /\ block_merge MReplace [] nb a = (b', Ret tt) /\
  get_loop_names (u "_a") b' = Ret [u "_a"; u "_b"] /\ get_item (u "_a") b' = Ret (VStr (u "x")) /\ get_item (u "_b") b' = Ret (VList [VStr (u "3"); VStr (u "4")]).
Proof.
  exists (looped_block [(u "_a", VList [VStr (u "1"); VStr (u "2")]); (u "_b", VList [VStr (u "3"); VStr (u "4")])]), (item_block [(u "_a", VStr (u "x"))]).
  eexists. split; [|split; [intros k cols []|]].
  - intros k cols [E|[]]. injection E as _ <-. exists 2. split; [discriminate|]. intros n [<-|[<-|[]]]; (split; [vm_compute; reflexivity|]); eexists; (split; [vm_compute; reflexivity|reflexivity]).
  - split; [vm_compute; reflexivity|]. split; [vm_compute; reflexivity|]. split; vm_compute; reflexivity.
Qed.
(** An excepted dataname of a loop makes strict mode fail. *)
Theorem C40_strict_looped_refuted : exists a nb exc, WF a /\ proper_loops nb /\ (forall n, In n (b_keys nb) -> In n (b_keys a) -> In n exc) /\
  snd (block_merge MStrict exc nb a) = Raise KeyErr.
Proof.
  exists (empty_block true 0 false), (looped_block [(u "_a", VList [VStr (u "1")]); (u "_b", VList [VStr (u "2")])]), [u "_a"].
  split; [apply empty_wf|]. split; [|split; [intros n _ []|vm_compute; reflexivity]].
  intros k cols [E|[]]. injection E as _ <-. exists 1. split; [discriminate|]. intros n [<-|[<-|[]]]; (split; [vm_compute; reflexivity|]); eexists; (split; [vm_compute; reflexivity|reflexivity]).
Qed.
(** An excepted dataname that the old block does not have gets a spelling but no
    value. *)
Theorem C40_strict_spelling_refuted : exists a nb exc b', WF a /\ WF nb /\ block_merge MStrict exc nb a = (b', Ret tt) /\
  has_key (u "_name") b' = false /\ dget str_eqb (u "_name") (b_true b') = Some (u "_Name").
Proof.
  exists (empty_block true 0 false), (item_block [(u "_Name", VStr (u "2"))]), [u "_name"]. eexists.
  split; [apply empty_wf|]. split; [apply update_items_wf, empty_wf|]. split; [vm_compute; reflexivity|]. split; vm_compute; reflexivity.
Qed.
(** ** Examples *)
Definition ex_old : block := fst (create_loop [u "_c"; u "_D"; u "_e"] (-1) true
  (item_block [(u "_Name", VStr (u "x")); (u "_c", VList [VStr (u "1"); VStr (u "2")]); (u "_D", VList [VStr (u "3"); VStr (u "4")]); (u "_e", VList [VStr (u "5"); VStr (u "6")])])).
Definition ex_new : block := fst (create_loop [u "_f"; u "_G"] (-1) true
  (item_block [(u "_NAME", VStr (u "y")); (u "_f", VList [VStr (u "1")]); (u "_G", VList [VStr (u "3")]); (u "_h", VNum (u "7"))])).
Definition ex_over : block := fst (create_loop [u "_D"; u "_new"] (-1) true
  (item_block [(u "_D", VList [VStr (u "1")]); (u "_new", VList [VStr (u "3")])])).
Lemma item_block_wf l : WF (item_block l).
Proof. apply update_items_wf, empty_wf. Qed.
Example C40_example : WF ex_old /\ WF ex_new /\ WF ex_over /\ proper_loops ex_new /\ proper_loops ex_over /\ accepts ex_old ex_new /\ accepts ex_old ex_over /\ b_over ex_old = true
  /\ (forall n, In n [u "_name"] -> ~ looped_in ex_new n)
  /\ (forall n, In n (b_keys ex_new) -> In n (b_keys ex_old) -> In n [u "_name"])
  /\ (exists b', block_merge MStrict [u "_name"] ex_new ex_old = (b', Ret tt) /\ get_item (u "_name") b' = Ret (VStr (u "x"))
        /\ get_item (u "_h") b' = Ret (VNum (u "7")) /\ get_loop_names (u "_g") b' = Ret [u "_f"; u "_g"])
  /\ (exists b', block_merge MReplace [] ex_over ex_old = (b', Ret tt) /\ get_loop_names (u "_d") b' = Ret [u "_d"; u "_new"]
        /\ get_loop_names (u "_c") b' = Ret [u "_c"; u "_e"] /\ get_item (u "_c") b' = Ret (VList [VStr (u "1"); VStr (u "2")])).
Proof.
  split; [apply create_loop_wf; [apply item_block_wf|repeat constructor; cbn; intuition discriminate]|].
  split; [apply create_loop_wf; [apply item_block_wf|repeat constructor; cbn; intuition discriminate]|].
  split; [apply create_loop_wf; [apply item_block_wf|repeat constructor; cbn; intuition discriminate]|].
  split; [intros k cols [E|[]]; injection E as _ <-; exists 1; (split; [discriminate|]); intros n [<-|[<-|[]]]; (split; [vm_compute; reflexivity|]); eexists; (split; [vm_compute; reflexivity|reflexivity])|].
  split; [intros k cols [E|[]]; injection E as _ <-; exists 1; (split; [discriminate|]); intros n [<-|[<-|[]]]; (split; [vm_compute; reflexivity|]); eexists; (split; [vm_compute; reflexivity|reflexivity])|].
  split; [intros n [<-|[<-|[<-|[<-|[]]]]]; (split; [vm_compute; reflexivity|]); (eexists; split; [vm_compute; reflexivity|]); (split; [eexists; vm_compute; reflexivity|vm_compute; reflexivity])|].
  split; [intros n [<-|[<-|[]]]; (split; [vm_compute; reflexivity|]); (eexists; split; [vm_compute; reflexivity|]); (split; [eexists; vm_compute; reflexivity|vm_compute; reflexivity])|].
  split; [vm_compute; reflexivity|].
  split; [intros n [<-|[]] (k & cols & [E|[]] & Hn); injection E as _ <-; vm_compute in Hn; intuition discriminate|].
  split; [intros n Hn Ho; assert (mem str_eqb n (b_keys ex_old) = true) as M by (now apply (mem_In _ str_eqb_spec)); destruct Hn as [<-|[<-|[<-|[<-|[]]]]]; [now left| | |]; vm_compute in M; discriminate|].
  split; eexists; (split; [vm_compute; reflexivity|]); split; [vm_compute; reflexivity|split; vm_compute; reflexivity|vm_compute; reflexivity|split; vm_compute; reflexivity].
Qed.

(** The other modes leave the block as it is: overlay is an error, and what is not a mode at all is not. *)
Theorem C40_other_modes : forall mode exc nb b b' r, mode <> MStrict -> mode <> MReplace -> block_merge mode exc nb b = (b', r) ->
  b' = b /\ (mode = MOverlay <-> r = Raise StarErr) /\ (mode = MOther <-> r = Ret tt).
Proof.
  intros mode exc nb b b' r H1 H2 E. destruct mode; try congruence; injection E as <- <-; (split; [reflexivity|]); split; split; congruence.
Qed.

Definition merge_theorems :=
  (C40_other_modes, C40_strict_refuses, C40_strict_union, C40_strict_exact, C40_replace, C40_replace_returns,
   C40_strict_atomic_refuted, C40_replace_excepted_refuted, C40_replace_read_refuted, C40_replace_column_refuted,
   C40_strict_looped_refuted, C40_strict_spelling_refuted).
Print Assumptions merge_theorems.
