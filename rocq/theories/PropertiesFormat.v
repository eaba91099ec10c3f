(** Properties C22-C24: the written form of a text value and reading it back. *)
From Coq Require Import String Ascii List NArith ZArith Bool Lia.
From Verif Require Import PyBase RegexModel FoldModel ScanModel FormatModel ReadModel ParseModel
  FoldSpec ScanSpec FormatSpec ScanProofs3 TextProofs TextProofs2 FormatProofs FormatProofs2 FormatProofs3 FormatProofs4.
Import ListNotations.

(** C22.  Every text is formatted, with an admissible delimiter; the requested one
    is used exactly when it is admissible, otherwise the first admissible one of
    apostrophe, double quote and text field. *)
Theorem C22_delimiter : forall g maxout req s, exists d f,
  format_string g maxout req s = Ret f /\ written d s f /\ admissible g maxout d s
  /\ (d = req <-> admissible g maxout req s)
  /\ (~ admissible g maxout req s ->
      (admissible g maxout (Some [QS]) s /\ d = Some [QS])
      \/ (~ admissible g maxout (Some [QS]) s /\ admissible g maxout (Some [QD]) s /\ d = Some [QD])
      \/ (~ admissible g maxout (Some [QS]) s /\ ~ admissible g maxout (Some [QD]) s /\ d = Some [NL; SC])).
Proof.
  intros g maxout req s. destruct (format_written g maxout req s) as (d & f & E & W & ->).
  destruct (choose_spec g maxout req s) as (A & B & C). exists (choose req (allowed g maxout s)), f.
  split; [exact E|]. split; [exact W|]. split; [exact A|]. split; [|exact C].
  split; [intros H; cbv zeta in A; now rewrite H in A|exact B].
Qed.

(** Three quotes are admissible around anything, so the property fails for them:
    a text that ends in a quote is written with four quotes at its end. *)
Theorem C22_triple_refuted : exists s f, format_string G20 80 (Some [QD; QD; QD]) s = Ret f
  /\ f = [QD; QD; QD] ++ s ++ [QD; QD; QD] /\ ~ triple_ok QD s
  /\ data_value G20 (PS (f ++ [NL]) None) <> Ret (VStr s, PS [NL] None).
Proof.
  exists (u "say ""x"""). eexists. split; [vm_compute; reflexivity|]. split; [reflexivity|]. split.
  - intros [_ H]. apply (H (u "say ""x")). reflexivity.
  - vm_compute. discriminate.
Qed.

Example C22_example :
  format_string G11 80 None (u "abc") = Ret (u "abc") /\ format_string G11 80 None (u "data_x") = Ret (u "'data_x'")
  /\ format_string G11 80 (Some [QS]) (u "it's") = Ret (u """it's""")
  /\ format_string G11 80 (Some [QS]) (u "it's ""x""") = Ret ([NL; SC] ++ u "it's ""x""" ++ [NL; SC])
  /\ format_string G11 80 (Some [QD; QD; QD]) (u "x") = Ret (u "'x'")
  /\ format_string G20 80 (Some [QD; QD; QD]) (u "x") = Ret (u """""""x""""""")
  /\ format_string G11 80 None [] = Ret (u "''").
Proof. repeat split; vm_compute; reflexivity. Qed.

(** Reading a value: directly, or after a look at the next token. *)
Definition reads_back (g : grammar) (in_loop : bool) (inp s t : str) : Prop :=
  data_value g (PS inp None) = Ret (VStr s, PS t None)
  /\ forall restrict, value_place g in_loop restrict ->
     exists tk st, peek g restrict (PS inp None) = Ret (tk, st) /\ In tk (value_tokens g)
     /\ data_value g st = Ret (VStr s, PS t None).
Lemma read_reads g b inp s t : read_value g b inp (VStr s) t -> reads_back g b inp s t.
Proof.
  intros H. split; [unfold data_value; eapply read_value_fresh; exact H|].
  destruct H as (tk & m & rest & H1 & H2 & H3). intros restrict Hp. exists tk, (PS rest (Some (tk, m, restrict))).
  split; [apply peek_fresh, H2, Hp|]. split; [exact H1|]. apply H3. exact (proj1 (proj1 Hp)).
Qed.

(** C23.  Grammars 1.0 and 1.1: whatever delimiter was asked for, the written form
    of a text, with blanks [w] before and white space or the end of the file after
    it, is read back as that text and nothing more is consumed. *)
Theorem C23_round_trip : forall g b maxout req s f t w, g = G10 \/ g = G11 ->
  format_string g maxout req s = Ret f -> readable b s f -> closes g t -> Forall skippable w ->
  reads_back g b (w ++ f ++ t) s t.
Proof. intros g b maxout req s f t w _ H1 H2 H3 H4. apply read_reads. eapply format_read; eauto. Qed.

(** The exceptions are misread.  A word stop_... left undelimited is a syntax
    error wherever a value is expected. *)
Theorem C23_stop : forall g b s t w restrict, value_place g b restrict -> starts_ci (u "stop_") s ->
  Forall skippable w -> scan g restrict (w ++ s ++ t) = Raise SyntaxErr.
Proof. exact stop_misread. Qed.
(** The word loop_ alone begins a new loop where one is admissible. *)
Theorem C23_loop : forall g s t w restrict, value_context g restrict -> In LBlock restrict ->
  lower s = u "loop_" -> closes g t -> Forall skippable w ->
  scan g restrict (w ++ s ++ t) = Ret (LBlock, s, t).
Proof. exact loop_misread. Qed.
(** A text written as it is between semicolons is read back exactly if it neither
    starts like a folded or prefixed text nor has a line that counts as a comment;
    otherwise a shorter text is read. *)
Theorem C23_text_field : forall g b s t w, ~ In CR s -> no_terminator s -> Forall skippable w ->
  exists v, reads_back g b (w ++ [NL; SC] ++ s ++ [NL; SC] ++ t) v t
  /\ (v = s <-> text_ok s s) /\ (v <> s -> (length v < length s)%nat).
Proof.
  intros g b s t w H1 H2 H3. destruct (verbatim_read g b s t w H1 H2 H3) as (v & A & B). exists v.
  split; [now apply read_reads|exact B].
Qed.
(** Both kinds of exception do come from the formatter. *)
Theorem C23_refuted : exists s1 s2 s3 f1 f2 f3,
  format_string G11 80 None s1 = Ret f1 /\ data_value G11 (PS (f1 ++ [NL]) None) = Raise SyntaxErr
  /\ format_string G11 80 None s2 = Ret f2 /\ data_value G11 (PS (f2 ++ [NL]) None) <> Ret (VStr s2, PS [NL] None)
  /\ format_string G11 80 None s3 = Ret f3 /\ data_value G11 (PS (f3 ++ [NL]) None) <> Ret (VStr s3, PS [NL] None).
Proof.
  exists (u "stop_here"), (u "a" ++ [NL] ++ u "#b" ++ [NL] ++ u "c"), (u "CIF\" ++ [NL] ++ u "x").
  do 3 eexists. repeat split; try (vm_compute; reflexivity); vm_compute; discriminate.
Qed.

(** C24.  The same with grammars 2.0 and STAR2, where a bracket (or, in STAR2, a
    comma) may follow directly; triple quotes included. *)
Theorem C24_round_trip : forall g b maxout req s f t w, g = G20 \/ g = GS2 ->
  format_string g maxout req s = Ret f -> readable b s f -> closes g t -> Forall skippable w ->
  reads_back g b (w ++ f ++ t) s t.
Proof. intros g b maxout req s f t w _ H1 H2 H3 H4. apply read_reads. eapply format_read; eauto. Qed.

(** Non-trivial cases. *)
Lemma eqb_neq (a b : str) : str_eqb a b = false -> a <> b.
Proof. intros H ->. assert (str_eqb b b = true) by now apply str_eqb_eq. congruence. Qed.
Definition long_text : str :=
  u "The structure was solved by direct methods, and refined on F squared, with all data; hydrogen atoms riding." ++ [NL]
  ++ u ";semicolon line" ++ [NL] ++ u "end".
Lemma hash_by (p : str) :
  forallb (fun i => match skipn i p with
                    | c :: d :: _ => negb ((c =? 10)%N && (d =? 35)%N)
                    | _ => true end) (seq 0 (length p)) = true -> ~ hash_line p.
Proof.
  intros H (a & l & c & b & -> & _). rewrite forallb_forall in H. specialize (H (length a)). rewrite skipn_app, skipn_all, Nat.sub_diag in H.
  cbn [skipn app] in H. cbn in H. assert (In (length a) (seq 0 (length (a ++ [10%N] ++ (35%N :: l) ++ [10%N] ++ c :: b)))) as Hi
    by (apply in_seq; rewrite app_length; cbn; lia).
  specialize (H Hi). discriminate.
Qed.
Lemma no_backslash_ok s p : ~ In CR s -> ~ In BS s -> ~ hash_line p -> text_ok s p.
Proof.
  intros H1 H2 H3. split; [exact H1|]. split; [intros bl r [-> _]; apply H2; now left|].
  split; [|split; [|exact H3]].
  - intros _ (c & q & bs & bl & r & -> & _ & _ & _ & _ & _ & Hb & _). apply H2.
    rewrite !in_app_iff. right. left. destruct Hb as [->| ->]; now left.
  - intros _ (a & b & bl & z & -> & _). apply H2. apply in_or_app. right. now left.
Qed.
Example C23_example_text : exists f, format_string G11 80 None long_text = Ret f /\ readable true long_text f
  /\ data_value G11 (PS ([32; 10]%N ++ f ++ [NL]) None) = Ret (VStr long_text, PS [NL] None)
  /\ closes G11 [NL].
Proof.
  eexists. split; [vm_compute; reflexivity|]. split; [|split; [vm_compute; reflexivity|left; reflexivity]].
  split; [intros E; exfalso; revert E; apply eqb_neq; vm_compute; reflexivity|].
  split; [intros q [->| ->] E; discriminate|]. split; [intros q [->| ->] E; discriminate|].
  intros p E. match type of E with ?x = _ => assert (exists p0, x = [NL; SC] ++ p0 ++ [NL; SC] /\ ~ hash_line p0) as (p0 & E0 & H0) end.
  { match goal with |- exists p0, ?x = _ /\ _ => exists (firstn (length x - 4) (skipn 2 x)) end. split; [vm_compute; reflexivity|].
    apply hash_by. vm_compute. reflexivity. }
  rewrite E0 in E. apply app_inv_head in E. apply app_inv_tail in E. subst p0. apply no_backslash_ok; [| |exact H0].
  - vm_compute. intuition discriminate.
  - vm_compute. intuition discriminate.
Qed.
Example C23_example_plain : readable true (u "5.43(2)") (u "5.43(2)") /\ format_string G11 80 None (u "5.43(2)") = Ret (u "5.43(2)").
Proof.
  split; [|vm_compute; reflexivity]. split.
  - intros _. split; [|split].
    + intros c H. cbn in H. repeat (destruct H as [<-|H]; [reflexivity|]). destruct H.
    + intros (a & b & E & H). destruct a as [|x a]; [discriminate|]. cbn in E. injection E as <- _. discriminate.
    + intros _. discriminate.
  - split; [intros q [->| ->] E; discriminate|]. split; [intros q [->| ->] E; discriminate|]. intros p E. discriminate.
Qed.
Example C24_example_triple : let s := u "it's" ++ [NL] ++ u """so""!" in
  exists f, format_string G20 80 (Some [QD; QD; QD]) s = Ret f /\ readable true s f
  /\ data_value G20 (PS (f ++ u "]") None) = Ret (VStr s, PS (u "]") None) /\ closes G20 (u "]").
Proof.
  cbv zeta. eexists. split; [vm_compute; reflexivity|]. split; [|split; [vm_compute; reflexivity|right; left; split; [reflexivity|cbn; tauto]]].
  split; [intros E; discriminate|]. split; [intros q [->| ->] E; discriminate|].
  split; [|intros p E; discriminate]. intros q _ E. assert (q = QD) as -> by (injection E as <-; reflexivity). split.
  - intros (a & z & H). do 10 (destruct a as [|? a]; [discriminate|injection H as _ H]). destruct a; discriminate.
  - intros a H. apply (f_equal (@rev N)) in H. rewrite (rev_app_distr a) in H. cbn in H. discriminate.
Qed.
Example C23_stop_example : value_place G11 true (value_first G11 ++ item_follow) /\ starts_ci (u "stop_") (u "STOP_now").
Proof.
  split; [|exists (u "STOP_"), (u "now"); split; reflexivity]. split; [|reflexivity]. split; intros t H; cbn in *; tauto.
Qed.
Example C23_loop_example : In LBlock (value_first G11 ++ item_follow) /\ lower (u "Loop_") = u "loop_"
  /\ format_string G11 80 None (u "Loop_") = Ret (u "Loop_").
Proof. repeat split; try reflexivity. cbn. tauto. Qed.
Example C23_text_field_example : ~ In CR long_text /\ ~ text_ok (u "a" ++ [NL] ++ u "#b" ++ [NL] ++ u "c") (u "a" ++ [NL] ++ u "#b" ++ [NL] ++ u "c").
Proof.
  split; [vm_compute; intuition discriminate|]. intros (_ & _ & _ & _ & H). apply H.
  exists (u "a"), (u "b"), 99%N, []. split; [reflexivity|]. split; [cbn; intuition discriminate|discriminate].
Qed.

(** One command for all the theorems above: what it lists is the union of what they
    depend on. *)
Definition format_theorems :=
  (C22_delimiter,
   C22_triple_refuted,
   C23_round_trip,
   C23_stop,
   C23_loop,
   C23_text_field,
   C23_refuted,
   C24_round_trip).
Print Assumptions format_theorems.
