(** Properties of output with a template: C50, and C26 with templates. *)
From Coq Require Import String Ascii List NArith ZArith Bool Lia Permutation.
From Verif Require Import PyBase PyFacts RegexModel FoldModel StarBlockModel LoopModel ScanModel FormatModel ReadModel WriteModel ParseModel CollectionModel FileModel OrderModel
  FoldSpec StarBlockSpec LoopSpec ReadSpec ScanSpec FormatSpec WriteSpec ParseSpec OrderSpec
  StarBlockProofs ReadProofs2 ParseProofs5 ParseProofs6 OrderProofs OrderProofs2 PropertiesWrite.
Import ListNotations.
Open Scope nat_scope.

(** * C50: the order of output *)
Theorem C50_template_order : forall t hs b, WF t -> from_template t hs -> WF b ->
  exists new extras b', full_order hs b = Ret (new, extras, b') /\ requested_first (requested_order hs) b (new ++ extras)
    /\ WF b' /\ rearranged (requested_order hs) b b'.
Proof.
  intros t hs b Wt F W. destruct (template_ok t hs Wt F) as [N L].
  destruct (full_order_ok b hs W N L) as (new & extras & b' & E & P & S & O & X & W' & R). exists new, extras, b'.
  split; [exact E|]. split; [|split; [exact W'|exact R]]. split; [exact P|]. exists new, extras. split; [reflexivity|]. split; [exact S|]. split; [exact O|exact X].
Qed.
(** The names asked for are the datanames of the template, in its order. *)
Theorem C50_template_names : forall t hs, WF t -> from_template t hs -> ~ In (u "loop") (b_keys t) ->
  Permutation (requested_order hs) (b_keys t)
  /\ forall n m, In n (requested_order hs) -> In m (requested_order hs) ->
     forall x y a c d, place t n x -> place t m y -> b_order t = a ++ x :: c ++ y :: d ->
       exists r1 r2 r3, requested_order hs = r1 ++ n :: r2 ++ m :: r3.
Proof.
  intros t hs W F Nl. assert (requested_order hs = filter (fun n => negb (str_eqb n (u "loop"))) (template_names t)) as E by (unfold requested_order; now rewrite F).
  assert (forall l : list str, incl l (b_keys t) -> filter (fun n => negb (str_eqb n (u "loop"))) l = l) as K.
  { intros l H. apply filter_all. intros n Hn. apply negb_true_iff. destruct (str_eqb_spec n (u "loop")) as [->|]; [|reflexivity]. exfalso. apply Nl. now apply H. }
  split.
  - rewrite E, (template_perm t W), K; [exact (wf_place t W)|]. intros n Hn. apply (printed_In_keys t n W). exact Hn.
  - intros n m _ _ x y a c d Hx Hy Eo. rewrite E. unfold template_names. rewrite Eo, flat_map_app. cbn [flat_map]. rewrite flat_map_app. cbn [flat_map].
    assert (forall k z, place t k z -> exists p q, filter (fun n => negb (str_eqb n (u "loop"))) (match z with ON n => [n] | OL k => u "loop" :: match dget Z.eqb k (b_loops t) with Some cols => cols | None => [] end end) = p ++ k :: q) as S.
    { intros k z (Hz & [->|(j & cols & -> & Hj & Hk)]).
      - rewrite K; [exists [], []; reflexivity|]. intros ? [<-|[]]. apply (place_key t W k (ON k)). split; [exact Hz|now left].
      - rewrite (dget_In_NoDup _ Z.eqb_spec j cols _ (wf_nums t W) Hj). cbn [filter]. change (str_eqb (u "loop") (u "loop")) with true. cbn [negb].
        rewrite K; [apply in_split in Hk as (p & q & ->); eauto|]. intros r Hr. apply (place_key t W r (OL j)). split; [exact Hz|right; eauto]. }
    destruct (S n x Hx) as (p1 & q1 & E1). destruct (S m y Hy) as (p2 & q2 & E2). rewrite !filter_app, E1, E2.
    generalize (filter (fun n => negb (str_eqb n (u "loop"))) (flat_map (fun it => match it with ON n => [n] | OL k => u "loop" :: match dget Z.eqb k (b_loops t) with Some cols => cols | None => [] end end) a)) as r1.
    generalize (filter (fun n => negb (str_eqb n (u "loop"))) (flat_map (fun it => match it with ON n => [n] | OL k => u "loop" :: match dget Z.eqb k (b_loops t) with Some cols => cols | None => [] end end) c)) as r2.
    generalize (filter (fun n => negb (str_eqb n (u "loop"))) (flat_map (fun it => match it with ON n => [n] | OL k => u "loop" :: match dget Z.eqb k (b_loops t) with Some cols => cols | None => [] end end) d)) as r3.
    intros r3 r2 r1. exists (r1 ++ p1), (q1 ++ r2 ++ p2), (q2 ++ r3). repeat (rewrite <- app_assoc || rewrite <- app_comm_cons). reflexivity.
Qed.
(** Ordering a block again gives the same order and columns. *)
Theorem C50_stable : forall t hs b new extras b', WF t -> from_template t hs -> WF b ->
  full_order hs b = Ret (new, extras, b') -> full_order hs b' = Ret (new, extras, b').
Proof. intros t hs b new extras b' Wt F W. destruct (template_ok t hs Wt F) as [N L]. now apply full_order_again. Qed.
(** Output up to a dataname and output from it are together the whole output. *)
Theorem C50_parts : forall t hs b new extras b' name, WF t -> from_template t hs -> WF b ->
  full_order hs b = Ret (new, extras, b') ->
  exists a c, finish_at (requested_order hs) new extras name b' = Ret a /\ start_from (requested_order hs) new extras name b' = Ret c
    /\ a ++ c = new ++ extras.
Proof.
  intros t hs b new extras b' name Wt F W E. destruct (template_ok t hs Wt F) as [N L].
  destruct (parts_total hs b new extras b' name W N L E) as (a & c & Ea & Ec). exists a, c. split; [exact Ea|]. split; [exact Ec|].
  eapply parts_cut; eauto.
Qed.
(** Hints that do not come from a template can ask twice for an item, which is then
    printed twice, and cannot be read. *)
Definition two_items : block := fst (read_block [Kv (u "_a") (VStr (u "1")); Kv (u "_b") (VStr (u "2"))] (empty_block false 0 false)).
Definition twice_hints : list hint := [Hint (u "_b") None None None; Hint (u "_B") None None None].
Theorem C50_twice_refuted : exists b hs new extras b' out ds, full_order hs b = Ret (new, extras, b')
  /\ ~ Permutation (new ++ extras) (b_order b) /\ print_block G11 2048 hs b = Ret out
  /\ parse_file G11 (file_text [(u "x", out)]) = Ret [ds]
  /\ snd (read_block (plain_items (d_contents ds)) (empty_block false 0 false)) = Raise StarErr.
Proof.
  exists two_items, twice_hints, [ON (u "_b"); ON (u "_b")], [ON (u "_a")], two_items.
  exists (match print_block G11 2048 twice_hints two_items with Ret o => o | Raise _ => [] end).
  exists (match parse_file G11 (file_text [(u "x", match print_block G11 2048 twice_hints two_items with Ret o => o | Raise _ => [] end)]) with Ret (d :: _) => d | _ => DBlock [] [] end).
  split; [vm_compute; reflexivity|]. split; [intros X; apply Permutation_length in X; vm_compute in X; discriminate|].
  split; [vm_compute; reflexivity|]. split; vm_compute; reflexivity.
Qed.

(** * C26 with a template *)
Theorem C26_template : forall g maxout mx un t hs (bs : list (str * block)), WF t -> from_template t hs ->
  Forall (fun nb => readable_heading g (fst nb) /\ hinted_text_block g maxout mx hs (snd nb)) bs ->
  exists outs ds, Forall2 (fun nb o => fst o = fst nb /\ print_block g maxout hs (snd nb) = Ret (snd o)) bs outs
   /\ parse_file g (file_text outs) = Ret ds
   /\ Forall2 (fun nb d => d_name d = fst nb /\ reads_as mx un hs (snd nb) d) bs ds.
Proof. intros g maxout mx un t hs bs Wt F. destruct (template_ok t hs Wt F) as [N L]. now apply hinted_file. Qed.
(** Ordinary texts can be printed with any hints that do not ask for triple quotes. *)
Theorem C26_ordinary_hinted : forall g maxout hs in_loop s, ~ In (Some [QS; QS; QS]) (map h_delim hs) -> ~ In (Some [QD; QD; QD]) (map h_delim hs) ->
  ordinary s -> clear_hinted g maxout hs in_loop s.
Proof. exact ordinary_hinted. Qed.

(** ** Examples *)
Definition ex_template_items : list item :=
  [Kv (u "_Publ_text") (VStr (u "x")); Lp [u "_atom_site_note"; u "_atom_site_extra"] [VStr (u "1"); VStr (u "2")]; Kv (u "_other") (VStr (u "x"))].
Definition ex_template : block := fst (read_block ex_template_items (empty_block false 0 false)).
Definition ex_hints : list hint :=
  [Hint (u "_publ_text") (Some [NL; SC]) None (Some 0%Z); Hint (u "loop") None None (Some 2%Z);
   Hint (u "_atom_site_note") (Some [QD]) (Some 12%Z) (Some 4%Z); Hint (u "_atom_site_extra") None (Some 30%Z) (Some 4%Z);
   Hint (u "_other") None (Some 20%Z) (Some 0%Z)].
Lemma ex_template_WF : WF ex_template.
Proof.
  destruct (read_block_full ex_template_items 0 false) as (_ & H & _); [| |apply H; vm_compute; reflexivity].
  - unfold ex_template_items. repeat constructor; try discriminate; try (apply dataname_by; reflexivity).
  - unfold ex_template_items. constructor; [exact I|]. constructor; [|constructor; [exact I|constructor]].
    intros vs0 E. apply (f_equal (@rev value)) in E. rewrite rev_app_distr in E. cbn in E. discriminate.
Qed.
Example C50_example : WF ex_template /\ from_template ex_template ex_hints /\ ~ In (u "loop") (b_keys ex_template) /\ WF ex_text_block
  /\ requested_order ex_hints = [u "_publ_text"; u "_atom_site_note"; u "_atom_site_extra"; u "_other"]
  /\ exists b', full_order ex_hints ex_text_block = Ret ([ON (u "_publ_text"); OL 1], [ON (u "_cell.length_a")], b')
    /\ get_loop_names (u "_atom_site_label") ex_text_block = Ret [u "_atom_site_label"; u "_atom_site_note"]
    /\ get_loop_names (u "_atom_site_label") b' = Ret [u "_atom_site_note"; u "_atom_site_label"]
    /\ finish_at (requested_order ex_hints) [ON (u "_publ_text"); OL 1] [ON (u "_cell.length_a")] (u "_atom_site_note") b' = Ret [ON (u "_publ_text")].
Proof.
  split; [exact ex_template_WF|]. split; [vm_compute; reflexivity|]. split; [intros H; apply (mem_In _ str_eqb_spec) in H; vm_compute in H; discriminate|].
  split; [exact (proj1 (proj1 (proj2 C26_example)))|]. split; [vm_compute; reflexivity|].
  exists (match full_order ex_hints ex_text_block with Ret (_, _, b') => b' | Raise _ => ex_text_block end).
  split; [vm_compute; reflexivity|]. split; [vm_compute; reflexivity|]. split; vm_compute; reflexivity.
Qed.
Example C26_template_example : readable_heading G11 (u "Block_1") /\ hinted_text_block G11 2048 0 ex_hints ex_text_block
  /\ print_block G11 2048 ex_hints ex_text_block <> print_block G11 2048 [] ex_text_block.
Proof.
  destruct C26_example as (Hh & (W & Hn & Hk & Hl) & _). split; [exact Hh|].
  assert (~ In (Some [QS; QS; QS]) (map h_delim ex_hints) /\ ~ In (Some [QD; QD; QD]) (map h_delim ex_hints)) as [T1 T2].
  { split; intros X; cbn in X; intuition discriminate. }
  split; [|intros X; apply (f_equal (fun o => match o with Ret s => nth_error s 2 | Raise _ => None end)) in X; vm_compute in X; discriminate].
  split; [exact W|]. split; [exact Hn|]. split.
  - intros n Hi E. assert (b_keys ex_text_block = [u "_cell.length_a"; u "_atom_site_label"; u "_atom_site_note"; u "_publ_text"]) as Ek by (vm_compute; reflexivity). rewrite Ek in Hi.
    destruct Hi as [<-|[<-|[<-|[<-|[]]]]]; try (vm_compute in E; discriminate);
      (eexists; split; [vm_compute; reflexivity|]; apply (ordinary_hinted _ _ _ _ _ T1 T2), ordinary_by; vm_compute; reflexivity).
  - intros k cols Hi. assert (b_loops ex_text_block = [(1%Z, [u "_atom_site_label"; u "_atom_site_note"])]) as El by (vm_compute; reflexivity). rewrite El in Hi.
    destruct Hi as [E|[]]. injection E as <- <-. exists 2. split; [lia|]. split.
    + split; [discriminate|]. intros n [<-|[<-|[]]]; (split; [vm_compute; reflexivity|]; eexists; split; [vm_compute; reflexivity|reflexivity]).
    + split; [intros n [<-|[<-|[]]]; vm_compute; discriminate|].
      intros n i v [<-|[<-|[]]] (l & G & Hi); vm_compute in G; injection G as <-;
        (destruct i as [|[|i]]; [| |destruct i; discriminate]; injection Hi as <-; eexists; (split; [reflexivity|]); apply (ordinary_hinted _ _ _ _ _ T1 T2), ordinary_by; vm_compute; reflexivity).
Qed.

Definition order_theorems :=
  (C50_template_order,
   C50_template_names,
   C50_stable,
   C50_parts,
   C50_twice_refuted,
   C26_template,
   C26_ordinary_hinted).
Print Assumptions order_theorems.
