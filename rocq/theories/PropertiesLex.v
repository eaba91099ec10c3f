(** C99-C102: the lexer of dREL methods. *)
From Coq Require Import String Ascii List NArith PeanoNat Bool Lia.
From Verif Require Import PyBase PyFacts LexModel LexSpec LexProofs LexProofs2 LexProofs3 LexProofs4 LexProofs5 LexProofs6.
Import ListNotations.
Open Scope nat_scope.

(** ** C99: the tokens are those of the reading, and every text is done with *)
Theorem C99_exact st s ts d : (exists st', lex st s = Ret (ts, st') /\ s_depth st' = d) <-> reads (s_depth st) s ts d.
Proof. exact (lex_exact st s ts d). Qed.
Theorem C99_ends st s : (exists x, lex st s = Ret x) \/ lex st s = Raise SyntaxErr.
Proof. exact (lex_ends st s). Qed.
Theorem C99_fails st s : lex st s = Raise SyntaxErr <-> forall ts d, ~ reads (s_depth st) s ts d.
Proof.
  split.
  - intros E ts d R. apply C99_exact in R. destruct R as (st' & E' & _). congruence.
  - intros H. destruct (C99_ends st s) as [([ts st'] & E)|E]; [|exact E]. elim (H ts (s_depth st')). apply C99_exact. now exists st'.
Qed.
Theorem C99_unique d s ts d1 ts' d2 : reads d s ts d1 -> reads d s ts' d2 -> ts = ts' /\ d1 = d2.
Proof.
  intros R R'. apply (C99_exact {| s_depth := d; s_line := 1 |}) in R. apply (C99_exact {| s_depth := d; s_line := 1 |}) in R'.
  destruct R as (st & E & <-), R' as (st' & E' & <-). rewrite E in E'. injection E' as <- <-. now split.
Qed.
Definition sample : str := u "x += _cell.length_a * 0x1F # note
if (a >= 1.5e-3j,
 b) print ""it's"" ...".
Example C99_meets : exists st, lex fresh sample =
  Ret ([(ID, u "x"); (AUGOP, u "+="); (ITEM_TAG, u "_cell"); (LIT 46, u "."); (ID, u "length_a"); (LIT 42, u "*");
        (HEXINT, u "31"); (NEWLINE, [10%N]); (IF, u "if"); (OPEN_PAREN, u "("); (ID, u "a"); (GTE, u ">=");
        (IMAGINARY, u "1.5e-3j"); (LIT 44, u ","); (ID, u "b"); (CLOSE_PAREN, u ")"); (PRINT, u "print");
        (SHORTSTRING, u """it's"""); (ELLIPSIS, u "...")], st).
Proof. eexists. vm_compute. reflexivity. Qed.
Example C99_fails_meets : lex fresh (u "a ? b") = Raise SyntaxErr /\ lex fresh (u "'open") = Raise SyntaxErr.
Proof. split; vm_compute; reflexivity. Qed.

(** ** C100: parentheses and newlines *)
Theorem C100_balance st s ts st' : lex st s = Ret (ts, st') -> s_depth st' + closed ts = s_depth st + opened ts.
Proof. intros E. apply (reads_balance _ s). apply C99_exact. now exists st'. Qed.
Theorem C100_newlines st s ts st' before k t after : lex st s = Ret (ts, st') -> ts = before ++ (k, t) :: after ->
  (k = NEWLINE -> s_depth st + opened before = closed before) /\ (k = CLOSE_PAREN -> closed before < s_depth st + opened before).
Proof. intros E. apply (reads_newlines (s_depth st) s ts (s_depth st')). apply C99_exact. now exists st'. Qed.
Theorem C100_close_outside st s : s_depth st = 0 -> lex st (41%N :: s) = Raise SyntaxErr.
Proof.
  intros D. apply C99_fails. rewrite D. intros ts d R. inversion R as [|? ? ? ? ? G|? ? k t rest ? ? ? NG F|? ? ? ? ? NG F Sg]; subst.
  - unfold gap in G. lia.
  - apply first_kind in F as F2. destruct F2 as [I Sh]. destruct F as (_ & Es & _). apply shape_start in Sh. destruct Sh as (c & t' & -> & St). injection Es as <- _.
    cbn [kinds_at kinds In] in I. repeat (destruct I as [<-|I]; [revert St; cbn [starts]; unfold digit, quote_ch, letter_ch; lia|]). exact I.
  - revert Sg. unfold single_ch. vm_compute. intuition discriminate.
Qed.
Example C100_meets : exists st, lex fresh (u "f(a,
(b)
)
c") = Ret ([(ID, u "f"); (OPEN_PAREN, u "("); (ID, u "a"); (LIT 44, u ","); (OPEN_PAREN, u "("); (ID, u "b"); (CLOSE_PAREN, u ")"); (CLOSE_PAREN, u ")"); (NEWLINE, [10%N]); (ID, u "c")], st) /\ s_depth st = 0.
Proof. eexists. split; [vm_compute; reflexivity|reflexivity]. Qed.

(** ** C101: tokens written with blanks between them are read back *)
Theorem C101_written st ts : Forall (fun x => plain_token (fst x) (snd x)) ts ->
  exists st', lex st (written ts) = Ret (ts, st') /\ s_depth st' = s_depth st.
Proof. intros F. apply C99_exact. now apply written_reads. Qed.
Example C101_meets : Forall (fun x => plain_token (fst x) (snd x))
  [(IF, u "if"); (ID, u "if_1"); (LIT 43, u "+"); (INTEGER, u "0012"); (SHORTSTRING, u "'a # b'"); (REAL, u ".5"); (ITEM_TAG, u "_a_b")].
Proof.
  repeat apply Forall_cons; try apply Forall_nil; cbn [fst snd].
  - apply plain_word; [|discriminate]. exists ["if"; "If"]%string. split; [cbn; tauto|now left].
  - apply (plain_name 105%N (u "f_1")).
    + unfold letter_ch. lia.
    + change (Forall name_ch [102; 95; 49]%N). unfold name_ch, letter_ch, digit. repeat apply Forall_cons; try apply Forall_nil; lia.
    + intros k W. destruct (keyword_spec (u "if_1")) as [A _]. pose proof (A k W) as E. vm_compute in E. subst k. destruct W as (ws & I & _). cbn [words In] in I. repeat (destruct I as [I|I]; [discriminate|]). exact I.
    + intros (a & b & e & d & E & Ha & _). vm_compute in E. injection E as <- <- <- <-. unfold either in Ha. lia.
  - apply plain_single. vm_compute. tauto.
  - apply plain_integer. split; [discriminate|]. change (Forall digit [48; 48; 49; 50]%N). unfold digit. repeat apply Forall_cons; try apply Forall_nil; lia.
  - apply (plain_string 39%N (u "a # b")); [now left| |]; vm_compute; intuition discriminate.
  - apply (plain_real [] [53%N]); [constructor|repeat constructor; vm_compute; discriminate|discriminate].
  - apply (plain_tag (u "a_b")). split; [discriminate|]. change (Forall tag_ch [97; 95; 98]%N). unfold tag_ch, letter_ch, digit. repeat apply Forall_cons; try apply Forall_nil; lia.
Qed.

(** ** C102: strings, "else if" and line numbers *)
(** Whatever stands between the first and the last triple quote is one token. *)
Theorem C102_long_greedy st q x : quote_ch q -> long_body x ->
  exists st', lex st ([q; q; q] ++ x ++ [q; q; q]) = Ret ([(LONGSTRING, [q; q; q] ++ x ++ [q; q; q])], st').
Proof.
  intros Hq B. assert (reads (s_depth st) ([q; q; q] ++ x ++ [q; q; q]) ([(LONGSTRING, [q; q; q] ++ x ++ [q; q; q])] ++ []) (s_depth st)) as R.
  { apply (reads_token _ _ LONGSTRING ([q; q; q] ++ x ++ [q; q; q]) []).
    - intros c s' E. injection E as <- _. unfold gap, quote_ch in *. lia.
    - apply (first_at (s_depth st) [AUGOP; OPEN_PAREN; IMAGINARY; REAL; BININT; OCTINT; HEXINT; INTEGER; STRPREFIX] LONGSTRING
               [SHORTSTRING; ELSEIF; ID; ITEM_TAG; ESCAPE_NEWLINE; NEWLINE; COMMENT; ELLIPSIS; POWER; BADOR; ISEQUAL; NEQ; GTE; LTE; BADAND]); [reflexivity| | | |now rewrite app_nil_r| |].
      + cbn [app]. repeat apply Forall_cons; try apply Forall_nil; by_start.
      + cbn [app]. by_start.
      + cbn [app]. by_start.
      + exists q, x. now split.
      + intros t' r' E _. rewrite E, app_length. lia.
    - apply gives_same. cbn. intuition discriminate.
    - cbn [depth_after]. constructor. }
  apply C99_exact in R. destruct R as (st' & E & _). now exists st'.
Qed.
Example C102_meets : long_body (u "a \' b
c").
Proof. repeat (first [apply long_nil|apply long_escape; [discriminate|]|apply long_char; [discriminate|]]). Qed.
(** Two long strings in one method are read as a single one, with everything
    between them: the repetition in the rule is greedy (drel_lex.py 154). *)
Theorem C102_two_long_refuted : exists a b ts, (exists st', lex fresh a = Ret ([(LONGSTRING, a)], st')) /\
  (exists st', lex fresh b = Ret ([(LONGSTRING, b)], st')) /\ (exists st', lex fresh (a ++ u " + x + " ++ b) = Ret (ts, st')) /\ length ts = 1.
Proof.
  exists (u "'''p'''"), (u "'''q'''"). eexists. split; [eexists; vm_compute; reflexivity|]. split; [eexists; vm_compute; reflexivity|].
  split; [eexists; vm_compute; reflexivity|reflexivity].
Qed.
(** A backslash before a quote does not keep a short string open, although
    the rule has an alternative for it (drel_lex.py 159). *)
Theorem C102_escape_refuted : exists x rest, lex fresh (u "'" ++ x ++ u "\'" ++ rest ++ u "'") = Raise SyntaxErr.
Proof. exists (u "it"), (u "s"). vm_compute. reflexivity. Qed.
(** A name that starts with "if" is cut in two when it follows "else"
    (drel_lex.py 164). *)
Theorem C102_else_name_refuted : exists w, (exists st', lex fresh w = Ret ([(ID, w)], st')) /\
  (exists st', lex fresh (u "else " ++ w) = Ret ([(ELSEIF, u "else if"); (ID, u "fy")], st')).
Proof. exists (u "iffy"). split; eexists; vm_compute; reflexivity. Qed.
(** "ELSE IF" is known in capitals, "ELSE" and "IF" alone are not. *)
Theorem C102_capitals_refuted : exists t, (exists st', lex fresh (t ++ u " IF") = Ret ([(ELSEIF, t ++ u " IF")], st')) /\
  (exists st', lex fresh t = Ret ([(ID, t)], st')).
Proof. exists (u "ELSE"). split; eexists; vm_compute; reflexivity. Qed.
(** The line number grows by the length of the text of a newline token, blanks
    included, and not at all inside parentheses (drel_lex.py 219, 61). *)
Theorem C102_lines_refuted : exists s s', (exists ts st', lex fresh s = Ret (ts, st') /\ (s_line st' <> 1 + N.of_nat (count_occ N.eq_dec s 10%N))%N) /\
  (exists ts st', lex fresh s' = Ret (ts, st') /\ (s_line st' <> 1 + N.of_nat (count_occ N.eq_dec s' 10%N))%N).
Proof.
  exists (u "a
   b"), (u "f(a,
b)"). split; eexists; eexists; (split; [vm_compute; reflexivity|vm_compute; discriminate]).
Qed.

Definition lex_theorems := (C99_exact, C99_ends, C99_fails, C99_unique, C100_balance, C100_newlines, C100_close_outside, C101_written,
  C102_long_greedy, C102_two_long_refuted, C102_escape_refuted, C102_else_name_refuted, C102_capitals_refuted, C102_lines_refuted).
Print Assumptions lex_theorems.
