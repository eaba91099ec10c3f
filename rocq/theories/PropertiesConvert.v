(** C114: files that are read and written in another grammar say the same. *)
From Coq Require Import String Ascii List NArith ZArith PeanoNat Bool Permutation.
From Verif Require Import PyBase PyFacts StarBlockModel StarBlockSpec LoopSpec ReadModel ReadSpec RegexModel ScanModel ParseModel ParseSpec CollectionModel CollectionSpec FileModel FileSpec FileProofs3 GrammarSpec WholeSpec
  WholeProofs7 PropertiesWrite PropertiesWhole HandSpec HandProofs2 PropertiesHand ConvertSpec ConvertProofs.
Import ListNotations.
Open Scope nat_scope.

(** A well formed text of any grammar is read; the collection can be written in
    another grammar, and what is read from that says what the first text says: the
    same data blocks and frames, names, values, loops and order. *)
Theorem C114_converted g g' ts s ds o sd sc un maxout comment : set_out g ts s -> blocks_toks g ds ts -> Forall (fun d => grouped (d_contents d)) ds ->
  Forall one_level ds -> NoDup (map (fun x => lower (part_name x)) (flat_map parts ds)) -> Forall (part_fits sd (ro_maxn o)) (flat_map parts ds) ->
  s <> [] -> ~ In 26%N s -> short_lines (ro_maxlength o) s -> ro_cbf o = false -> chosen o g s -> (g = G20 -> firstn 10 s = magic) ->
  sd <> StdDic -> g' <> GS2 -> Forall (part_writable g' maxout) (flat_map parts ds) -> comment_text comment ->
  exists c text, read_star o s (new_coll sd sc un) = (c, Ret true) /\ write_out maxout [] comment (c_set_grammar g' c) = Ret text /\
  forall o' sc' un', text <> [] -> ~ In 26%N text -> short_lines (ro_maxlength o') text -> ro_cbf o' = false -> ro_maxn o' = ro_maxn o ->
    (ro_grammar o' = Some g' \/ ro_grammar o' = None /\ (g' = G20 \/ g' = G11 /\ firstn 10 text <> u "#\#CIF_2.0")) ->
    exists c', read_star o' text (new_coll sd sc' un') = (c', Ret true) /\ CWF c' /\ c_gram c' = g'
      /\ Permutation (ckeys c') (map (fun x => lower (part_name x)) (flat_map parts ds)) /\ c_order c' = map (fun x => lower (part_name x)) (flat_map parts ds)
      /\ Forall (says_part c') (flat_map parts ds).
Proof. intros S B G. apply (converted g g' s ds). exact (C112_complete g ts s ds S B G). Qed.
(** Every file of grammar 1.0 or 1.1 whose values are ordinary texts can be written in any of the
    grammars 1.0, 1.1 and 2.0. *)
Theorem C114_older g g' ts s ds sd maxn maxout : g = G10 \/ g = G11 -> set_out g ts s -> blocks_toks g ds ts -> Forall (fun d => grouped (d_contents d)) ds ->
  Forall (part_fits sd maxn) (flat_map parts ds) -> Forall plain_part (flat_map parts ds) -> Forall (part_writable g' maxout) (flat_map parts ds).
Proof. intros Hg S B G. apply (older_writable g g' s ds); [exact Hg|]. exact (C112_complete g ts s ds S B G). Qed.

(** ** Example: a value that grammar 2.0 has to quote *)
Definition old_toks : list lexeme :=
  [(DataHeading, u "data_A"); (DataName, u "_B"); (Value1, u "a[1]"); (SaveHeading, u "save_f"); (LBlock, u "loop_"); (DataName, u "_c"); (Value1, u "x"); (Value1, u "y"); (SaveEnd, u "save_")].
Definition old_file : str := u "data_A _B a[1] save_f loop_ _c x y save_".
Definition old_frame : list item := [Lp [u "_c"] [VStr (u "x"); VStr (u "y")]].
Definition old_blocks : list dblock := [DBlock (u "A") [CItems [Kv (u "_B") (VStr (u "a[1]"))]; CFrame (u "f") [CItems old_frame]]].
Example old_set_out : set_out G11 old_toks old_file.
Proof.
  unfold old_toks.
  eapply (set_next G11 [] DataHeading (u "data_A")); [vm_compute; reflexivity|apply sp_nil|tok_no| |].
  { exists (u "data_"), (u "A"). split; [reflexivity|]. split; [reflexivity|]. split; [|reflexivity]. split; [discriminate|repeat constructor]. }
  eapply (set_next G11 (u " ") DataName (u "_B")); [reflexivity|gap|tok_no| |].
  { split; [|reflexivity]. eexists. split; [reflexivity|]. split; [discriminate|repeat constructor]. }
  eapply (set_next G11 (u " ") Value1 (u "a[1]")); [reflexivity|gap|tok_no|place_word|].
  eapply (set_next G11 (u " ") SaveHeading (u "save_f")); [reflexivity|gap|tok_no| |].
  { exists (u "save_"), (u "f"). split; [reflexivity|]. split; [reflexivity|]. split; [|reflexivity]. split; [discriminate|repeat constructor]. }
  eapply (set_next G11 (u " ") LBlock (u "loop_")); [reflexivity|gap|tok_no|split; [reflexivity|left; reflexivity]|].
  eapply (set_next G11 (u " ") DataName (u "_c")); [reflexivity|gap|tok_no| |].
  { split; [|reflexivity]. eexists. split; [reflexivity|]. split; [discriminate|repeat constructor]. }
  eapply (set_next G11 (u " ") Value1 (u "x")); [reflexivity|gap|tok_no|place_word|].
  eapply (set_next G11 (u " ") Value1 (u "y")); [reflexivity|gap|tok_no|place_word|].
  eapply (set_next G11 (u " ") SaveEnd (u "save_") []); [reflexivity|gap|tok_no|split; reflexivity|].
  apply so_end. gap.
Qed.
Example old_derived : blocks_toks G11 old_blocks old_toks.
Proof.
  apply (bs_cons G11 (u "data_A") (d_contents (hd (DBlock [] []) old_blocks)) (tl old_toks) [] []); [|constructor].
  apply (c_items G11 false [Kv (u "_B") (VStr (u "a[1]"))] (firstn 2 (tl old_toks)) _ (skipn 2 (tl old_toks))); [discriminate| |].
  { apply (is_cons G11 (Kv (u "_B") (VStr (u "a[1]"))) (firstn 2 (tl old_toks)) [] []); [|constructor]. apply (i_pair G11 (u "_B") _ [(Value1, u "a[1]")]). apply (v_plain G11 (u "a[1]")). }
  apply (c_frame G11 false (u "save_f") [CItems old_frame] (firstn 4 (skipn 4 old_toks)) (u "save_") [] []); [discriminate| |constructor].
  apply (c_items G11 true old_frame (firstn 4 (skipn 4 old_toks)) [] []); [discriminate| |constructor].
  apply (is_cons G11 (Lp [u "_c"] [VStr (u "x"); VStr (u "y")]) (firstn 4 (skipn 4 old_toks)) [] []); [|constructor].
  apply (i_loop G11 (u "loop_") [u "_c"] [VStr (u "x"); VStr (u "y")] (firstn 2 (skipn 6 old_toks))); [discriminate|].
  apply (vs_cons G11 (VStr (u "x")) [(Value1, u "x")] [VStr (u "y")] [(Value1, u "y")]); [apply (v_plain G11 (u "x"))|].
  apply (vs_cons G11 (VStr (u "y")) [(Value1, u "y")] [] []); [apply (v_plain G11 (u "y"))|constructor].
Qed.
Example old_fits : Forall (part_fits StdNone 75) (flat_map parts old_blocks).
Proof.
  constructor; [|constructor; [|constructor]].
  - split; [cbn; apply Nat.leb_le; reflexivity|]. split; [repeat constructor|]. split; [repeat constructor; intros []|]. intros _ m [<-|[]]. vm_compute. discriminate.
  - split; [cbn; apply Nat.leb_le; reflexivity|]. split.
    + constructor; [|constructor]. split; [discriminate|]. split; [exists 2; reflexivity|].
      intros vs0 H. apply (f_equal (@rev value)) in H. rewrite rev_app_distr in H. discriminate H.
    + split; [repeat constructor; intros []|]. intros _ m [<-|[]]. vm_compute. discriminate.
Qed.
Example old_grouped : Forall (fun d => grouped (d_contents d)) old_blocks.
Proof. constructor; [|constructor]. repeat constructor. Qed.
Example C114_older_meets g' : Forall (part_writable g' 2048) (flat_map parts old_blocks).
Proof.
  apply (C114_older G11 g' old_toks old_file old_blocks StdNone 75); [now right|exact old_set_out|exact old_derived|exact old_grouped|exact old_fits|].
  assert (forall s, forallb (fun c => negb (is_space c)) s = true -> existsb (N.eqb 92) s = false -> existsb (N.eqb 35) s = false -> In s [u "a[1]"; u "x"; u "y"] -> plain_value (VStr s)) as P.
  { intros s _ _ _ H. exists s. split; [reflexivity|]. destruct H as [<-|[<-|[<-|[]]]]; apply ordinary_by; vm_compute; reflexivity. }
  constructor; [|constructor; [|constructor]].
  - constructor; [|constructor]. apply P; [reflexivity|reflexivity|reflexivity|now left].
  - constructor; [|constructor]. constructor; [apply P; [reflexivity|reflexivity|reflexivity|right; now left]|]. constructor; [apply P; [reflexivity|reflexivity|reflexivity|right; right; now left]|constructor].
Qed.
Definition old_text : str := Eval vm_compute in
  match write_out 2048 [] (u "#" ++ nl) (c_set_grammar G20 (fst (read_star ex_opts old_file (new_coll StdNone Instance false)))) with Ret t => t | Raise _ => [] end.
Example old_written : exists c, read_star ex_opts old_file (new_coll StdNone Instance false) = (c, Ret true) /\ write_out 2048 [] (u "#" ++ nl) (c_set_grammar G20 c) = Ret old_text.
Proof. exists (fst (read_star ex_opts old_file (new_coll StdNone Instance false))). split; vm_compute; reflexivity. Qed.
Example C114_meets : exists c text c', read_star ex_opts old_file (new_coll StdNone Instance false) = (c, Ret true)
  /\ write_out 2048 [] (u "#" ++ nl) (c_set_grammar G20 c) = Ret text
  /\ read_star ex_opts text (new_coll StdNone Instance false) = (c', Ret true) /\ says_part c' (u "f", Some (u "A"), old_frame) /\ c_order c' = [u "a"; u "f"].
Proof.
  destruct (C114_converted G11 G20 old_toks old_file old_blocks ex_opts StdNone Instance false 2048 (u "#" ++ nl) old_set_out old_derived old_grouped) as (c & text & H1 & H2 & H3).
  - constructor; [|constructor]. intros n l n' l' [H|[H|[]]]; [discriminate H|]. injection H as <- <-. intros [H|[]]. discriminate H.
  - vm_compute. constructor; [intros [H|[]]; discriminate H|]. constructor; [intros []|constructor].
  - exact old_fits.
  - discriminate.
  - vm_compute. intuition discriminate.
  - apply too_long_None. vm_compute. reflexivity.
  - reflexivity.
  - right. split; [reflexivity|]. right. split; [reflexivity|]. vm_compute. discriminate.
  - discriminate.
  - discriminate.
  - discriminate.
  - apply C114_older_meets.
  - exists [u "#"]. split; [|reflexivity]. constructor; [|constructor]. right. exists []. split; [reflexivity|]. split; intros [].
  - assert (text = old_text) as E.
    { destruct old_written as (c0 & H5 & H6). rewrite H5 in H1. injection H1 as <-. rewrite H6 in H2. now injection H2 as <-. }
    destruct (H3 ex_opts Instance false) as (c' & H4 & _ & _ & _ & H5 & H6).
    + rewrite E. discriminate.
    + rewrite E. intros H. apply (mem_In _ N.eqb_spec) in H. vm_compute in H. discriminate H.
    + apply too_long_None. rewrite E. vm_compute. reflexivity.
    + reflexivity.
    + reflexivity.
    + right. split; [reflexivity|now left].
    + exists c, text, c'. split; [exact H1|]. split; [exact H2|]. split; [exact H4|]. rewrite Forall_forall in H6. split; [apply H6; right; now left|exact H5].
Qed.

(** ** Values that the other grammar does not have *)
Definition lists_file : str := magic ++ nl ++ u "data_a _b [1]".
Definition lists_opts (g : grammar) : ropts := ROpts (Some g) 2048 false 75.
(** A list of grammar 2.0 is written without complaint in grammar 1.0, and is read from there as the text [1]. *)
Theorem C114_list_refuted : exists c text c' b b', read_star (lists_opts G20) lists_file (new_coll StdNone Instance false) = (c, Ret true)
  /\ c_get (u "a") c = Ret b /\ get_item (u "_b") b = Ret (VSL [VStr (u "1")])
  /\ write_out 2048 [] [] (c_set_grammar G10 c) = Ret text
  /\ read_star (lists_opts G10) text (new_coll StdNone Instance false) = (c', Ret true) /\ c_get (u "a") c' = Ret b' /\ get_item (u "_b") b' = Ret (VStr (u "[1]")).
Proof. eexists _, _, _, _, _. split; [vm_compute; reflexivity|]. split; [vm_compute; reflexivity|]. split; [vm_compute; reflexivity|]. split; [vm_compute; reflexivity|]. split; [vm_compute; reflexivity|]. split; [vm_compute; reflexivity|vm_compute; reflexivity]. Qed.
(** A list of grammar 2.0 is written without complaint in grammar 1.1, as a file that cannot be read. *)
Theorem C114_unreadable_refuted : exists c text, read_star (lists_opts G20) lists_file (new_coll StdNone Instance false) = (c, Ret true)
  /\ write_out 2048 [] [] (c_set_grammar G11 c) = Ret text /\ snd (read_star (lists_opts G11) text (new_coll StdNone Instance false)) = Raise StarErr.
Proof. eexists _, _. split; [vm_compute; reflexivity|]. split; [vm_compute; reflexivity|vm_compute; reflexivity]. Qed.
(** A dataname with a letter outside ASCII is written without complaint in grammar 1.1, as a file that cannot be read. *)
Theorem C114_letters_refuted : exists n c text, read_star (lists_opts G20) (magic ++ nl ++ u "data_a " ++ n ++ u " 1") (new_coll StdNone Instance false) = (c, Ret true)
  /\ write_out 2048 [] [] (c_set_grammar G11 c) = Ret text /\ snd (read_star (lists_opts G11) text (new_coll StdNone Instance false)) = Raise StarErr.
Proof. exists (u "_b" ++ [233%N]). eexists _, _. split; [vm_compute; reflexivity|]. split; [vm_compute; reflexivity|vm_compute; reflexivity]. Qed.

Definition convert_theorems := (C114_converted, C114_older, C114_list_refuted, C114_unreadable_refuted, C114_letters_refuted).
Print Assumptions convert_theorems.
