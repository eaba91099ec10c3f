(** Properties C30, C31 and the reading part of C16: the scanner and text fields. *)
From Coq Require Import String Ascii List NArith ZArith Bool Lia.
From Verif Require Import PyBase RegexModel FoldModel StarBlockModel ScanModel ReadModel ParseModel
  FoldSpec StarBlockSpec ScanSpec FormatSpec ScanProofs ScanProofs2 ScanProofs3 ScanProofs4 TextProofs TextProofs2
  FormatProofs2 FormatProofs3.
Import ListNotations.

(** C30.  For every grammar, restriction and input the scanner ends; it returns a
    token that stands after skipped blanks and comments and is the longest of the
    admissible patterns there, the earliest declared among equals; or it reports a
    syntax error at a position after skipped text where no pattern matches.  The
    text is always the skipped part, the token and the rest. *)
Theorem C30_scan : forall g restrict s,
  match scan g restrict s with
  | Ret (t, m, r) => exists w, s = w ++ m ++ r /\ skipped g (accepted g restrict) w (m ++ r)
                     /\ wins g (accepted g restrict) (m ++ r) t m r /\ ignored t = false
  | Raise e => e = SyntaxErr /\ exists w r, s = w ++ r /\ skipped g (accepted g restrict) w r
                     /\ stuck g (accepted g restrict) r
  end.
Proof. exact scan_total. Qed.

(** Conversely the result is determined by these conditions. *)
Theorem C30_determined : forall g restrict w t m r,
  skipped g (accepted g restrict) w (m ++ r) -> wins g (accepted g restrict) (m ++ r) t m r -> ignored t = false ->
  scan g restrict (w ++ m ++ r) = Ret (t, m, r).
Proof. exact scan_unique. Qed.

(** The admissible patterns: those asked for and the two ignore patterns, in the
    declared order. *)
Theorem C30_accepted : forall g restrict t, restrict <> [] ->
  (In t (accepted g restrict) <-> In t (patterns g) /\ (In t restrict \/ ignored t = true)).
Proof. exact accepted_In. Qed.

(** Blanks and comments never begin a token outside text fields; a token that
    begins with a line end is the beginning of a text field. *)
Theorem C30_token_start : forall g restrict s t m r c x,
  scan g restrict s = Ret (t, m, r) -> t <> ScLine -> m = c :: x ->
  ~ In c [32; 9; 35]%N /\ (c = 10%N \/ c = 13%N -> t = StartSc).
Proof. exact token_start. Qed.

(** Blanks before anything but a semicolon are skipped one and all. *)
Theorem C30_blanks : forall g restrict w s, restrict <> [] -> ~ In ScLine restrict ->
  Forall skippable w -> first_is 59 s = false -> scan g restrict (w ++ s) = scan g restrict s.
Proof. exact scan_blanks. Qed.

Definition ex_text : str := u "  # comment" ++ [10%N] ++ u " _cell.length_a 5.4(1) " ++ [10%N].
Example C30_example :
  scan G11 [LBlock; DataName] ex_text = Ret (DataName, u "_cell.length_a", u " 5.4(1) " ++ [10%N])
  /\ scan G11 [Value1; StartSc] (u " 5.4(1) " ++ [10%N]) = Ret (Value1, u "5.4(1)", u " " ++ [10%N])
  /\ scan G11 [Value1; StartSc] ex_text = Raise SyntaxErr
  /\ scan G20 (value_first G20 ++ item_follow) (u "loop_ 'a'") = Ret (LBlock, u "loop_", u " 'a'")
  /\ scan G20 (value_first G20 ++ item_follow) (u "loop_x 'a'") = Ret (Value1, u "loop_x", u " 'a'").
Proof. repeat split; vm_compute; reflexivity. Qed.
Example C30_determined_example :
  skipped G11 (accepted G11 [LBlock; DataName]) (u "  # comment" ++ [10%N] ++ u " ") (u "_cell.length_a" ++ u " 5.4(1) ")
  /\ wins G11 (accepted G11 [LBlock; DataName]) (u "_cell.length_a" ++ u " 5.4(1) ") DataName (u "_cell.length_a") (u " 5.4(1) ").
Proof.
  split.
  - change (u "  # comment" ++ [10%N] ++ u " ") with ([32%N] ++ [32%N] ++ (u "# comment" ++ [10%N]) ++ [32%N] ++ []).
    econstructor; [apply best_wins; vm_compute; reflexivity|reflexivity|discriminate|].
    econstructor; [apply best_wins; vm_compute; reflexivity|reflexivity|discriminate|].
    econstructor; [apply best_wins; vm_compute; reflexivity|reflexivity|discriminate|].
    econstructor; [apply best_wins; vm_compute; reflexivity|reflexivity|discriminate|]. constructor.
  - apply best_wins. vm_compute. reflexivity.
Qed.
Example C30_blanks_example : Forall skippable [32; 9; 10; 32]%N /\ first_is 59 ex_text = false.
Proof. split; [|reflexivity]. repeat constructor; unfold skippable; tauto. Qed.

(** C31.  Text fields.  If no line after the first starts with a hash sign, the
    text between the delimiters is returned character by character, whatever it
    contains otherwise (any kind of line end, any other character). *)
Theorem C31_verbatim : forall g restrict p tail, value_context g restrict ->
  no_line_starts_with 59 p -> no_line_starts_with 35 p ->
  exists st, peek g restrict (PS ([NL; SC] ++ p ++ [NL; SC] ++ tail) None) = Ret (StartSc, st)
  /\ sc_lines g st = Ret ([NL; SC] ++ p ++ [NL; SC], PS tail None).
Proof.
  intros g restrict p tail Hc H1 H2. destruct (field_any g p tail H1 H2) as (m & rest & A & B).
  exists (PS rest (Some (StartSc, m, restrict))). split; [apply peek_fresh, A; now left|]. apply B. apply Hc. destruct g; cbn; tauto.
Qed.

(** In general (texts without carriage returns): every line after the first that
    starts with a hash sign, has a non-empty line after it and is not the last is
    lost, and nothing else. *)
Theorem C31_exact : forall g restrict l0 ls tail, value_context g restrict ->
  Forall one_line (l0 :: ls) -> Forall (fun l => first_is 59 l = false) ls ->
  exists st, peek g restrict (PS ([NL; SC] ++ join_lines (l0 :: ls) ++ [NL; SC] ++ tail) None) = Ret (StartSc, st)
  /\ sc_lines g st = Ret ([NL; SC] ++ join_lines (l0 :: kept ls) ++ [NL; SC], PS tail None)
  /\ (hash_line (join_lines (l0 :: ls)) <-> kept ls <> ls).
Proof.
  intros g restrict l0 ls tail Hc H1 H2. destruct (field_by_lines g l0 ls tail H1 H2) as (m & rest & A & B).
  exists (PS rest (Some (StartSc, m, restrict))). split; [apply peek_fresh, A; now left|].
  split; [apply B, Hc; destruct g; cbn; tauto|].
  split; [now apply hash_lost|]. intros H. apply lost_hash; [now apply Forall_cons_iff in H1|exact H].
Qed.

(** So the property does not hold: such lines are dropped as comments. *)
Theorem C31_refuted : exists p tail x, no_line_starts_with 59 p
  /\ data_value G11 (PS ([NL; SC] ++ p ++ [NL; SC] ++ tail) None) = Ret (VStr x, PS tail None) /\ x <> p.
Proof.
  exists (u "one" ++ [NL] ++ u "# two" ++ [NL] ++ u "three"), [NL], (u "one" ++ [NL] ++ u "three").
  split; [|split; [vm_compute; reflexivity|discriminate]].
  intros a c b E. assert (In 59%N (a ++ c :: 59%N :: b)) as H by (apply in_or_app; right; right; now left).
  rewrite <- E in H. cbn in H. exfalso. intuition discriminate.
Qed.

Definition ex_field : str := u "title: 'x" ++ [NL] ++ u " ; # \ data_ loop_ _a " ++ [NL; NL] ++ u "last".
Example C31_example : value_context G11 (value_first G11 ++ item_follow)
  /\ data_value G11 (PS ([NL; SC] ++ ex_field ++ [NL; SC] ++ [NL]) None) = Ret (VStr ex_field, PS [NL] None).
Proof.
  split; [|vm_compute; reflexivity]. split; intros t H; cbn in *; tauto.
Qed.
Lemma starts_by (k : N) (p : str) :
  forallb (fun i => match skipn i p with
                    | c :: d :: _ => negb ((d =? k)%N && existsb (N.eqb c) [10; 13]%N)
                    | _ => true end) (seq 0 (length p)) = true -> no_line_starts_with k p.
Proof.
  intros H a c b ->. rewrite forallb_forall in H. specialize (H (length a)). rewrite skipn_app, skipn_all, Nat.sub_diag in H.
  cbn [skipn app] in H. assert (In (length a) (seq 0 (length (a ++ c :: k :: b)))) as Hi by (apply in_seq; rewrite app_length; cbn; lia).
  specialize (H Hi). rewrite N.eqb_refl in H. split; intros ->; discriminate.
Qed.
Example C31_example_lines : no_line_starts_with 59 ex_field /\ no_line_starts_with 35 ex_field.
Proof. split; apply starts_by; vm_compute; reflexivity. Qed.
Example C31_exact_example : let ls := [u "# a"; u "# b"; []; u "#"; u "x"; u "# last"] in
  Forall one_line (u "first" :: ls) /\ Forall (fun l => first_is 59 l = false) ls
  /\ kept ls = [u "# b"; []; u "x"; u "# last"].
Proof.
  cbv zeta. split; [|split; [|reflexivity]].
  - repeat (constructor; [split; cbn; intuition discriminate|]). constructor.
  - repeat (constructor; [reflexivity|]). constructor.
Qed.

(** C16, reading: an accepted ASCII dataname of two or more characters is read
    back as one data_name token by all four grammars, wherever a data_name is
    admissible; so are names of the basic plane with the CIF2 and STAR2 grammars. *)
Theorem C16_read_back : forall m n, check_data_name m false n = Ret tt -> (2 <= length n)%nat ->
  forall g restrict t w, In DataName restrict -> ~ In ScLine restrict -> ends_name t -> Forall skippable w ->
  scan g restrict (w ++ n ++ t) = Ret (DataName, n, t).
Proof. exact name_readback. Qed.
Theorem C16_read_back_unicode : forall m n, (forall c, In c n -> (c <= 0xFFFF)%N) ->
  check_data_name m true n = Ret tt -> (2 <= length n)%nat ->
  forall g restrict t w, g = G20 \/ g = GS2 ->
  In DataName restrict -> ~ In ScLine restrict -> ends_name t -> Forall skippable w ->
  scan g restrict (w ++ n ++ t) = Ret (DataName, n, t).
Proof. exact name_readback2. Qed.
(** A dataname consisting of the underscore alone is accepted but not readable. *)
Theorem C16_short_name_refuted : exists n t, check_data_name (-1) false n = Ret tt
  /\ scan G11 item_follow (n ++ t) = Raise SyntaxErr /\ scan G20 item_follow (n ++ t) = Raise SyntaxErr.
Proof. exists [95%N], (u " x"). repeat split; vm_compute; reflexivity. Qed.
Example C16_read_example : check_data_name 75 false (u "_[a]'""#;") = Ret tt
  /\ scan G10 [LBlock; DataName] (u " _[a]'""#; 1") = Ret (DataName, u "_[a]'""#;", u " 1")
  /\ check_data_name 75 true [95; 0xE9; 0x3B1]%N = Ret tt.
Proof. repeat split; vm_compute; reflexivity. Qed.

(** One command for all the theorems above: what it lists is the union of what they
    depend on. *)
Definition scan_theorems :=
  (C30_scan,
   C30_determined,
   C30_accepted,
   C30_token_start,
   C30_blanks,
   C31_verbatim,
   C31_exact,
   C31_refuted,
   C16_read_back,
   C16_read_back_unicode,
   C16_short_name_refuted).
Print Assumptions scan_theorems.
