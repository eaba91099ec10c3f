(** The compiled scanner (FlexModel) against the one in python, in the terms of FlexSpec. *)
From Coq Require Import String Ascii List NArith PeanoNat Bool Lia.
From Verif Require Import PyBase RegexModel ScanModel ReadModel ParseModel FlexModel FlexSpec FlexProofs7 FlexProofs9 FlexProofs10 FlexProofs11.
Import ListNotations.
Open Scope string_scope. Open Scope list_scope. Open Scope nat_scope.

Definition lf : string := String (ascii_of_nat 10) EmptyString.
Definition cr : string := String (ascii_of_nat 13) EmptyString.
Definition ff : string := String (ascii_of_nat 12) EmptyString.
Definition lines (l : list string) : str := u (String.concat lf l).

(** ** C90: tokens *)
(** Outside text fields the two scanners find the same token, whatever restriction the
    first one is given. *)
Theorem C90_outside_partial g R s t m r : g = G10 \/ g = G11 -> scan g R s = Ret (t, m, r) -> R <> [] -> (forall x, In x R -> In x outside) -> (In SaveEnd R -> In SaveHeading R) ->
  plain_text s -> tok_fit g t m r -> flex_scan Initial s = Ret (Some t, m, after t Initial, r).
Proof. exact (initial_token g R s t m r). Qed.
Lemma plain_dec s : forallb (fun c => ((32 <=? c) && (c <=? 126)) || (c =? 9) || (c =? 10))%N s = true -> plain_text s.
Proof.
  intros H c K. rewrite forallb_forall in H. specialize (H c K). apply orb_prop in H. destruct H as [H|H]; [apply orb_prop in H; destruct H as [H|H]|].
  - apply andb_prop in H. destruct H as [H1 H2]. apply N.leb_le in H1, H2. lia.
  - apply N.eqb_eq in H. lia.
  - apply N.eqb_eq in H. lia.
Qed.
Definition some_text : str := lines ["  # note"; "  'it's here' _b"].
Example C90_meets : flex_scan Initial some_text = Ret (Some Value1, u "'it's here'", Initial, u " _b").
Proof.
  apply (C90_outside_partial G11 (value_first G11 ++ item_follow)); [now right|vm_compute; reflexivity|discriminate| | |apply plain_dec; vm_compute; reflexivity|left; now left].
  - intros x H. cbn in H. cbn. tauto.
  - intros _. cbn. tauto.
Qed.
(** Within a text field: the same, for a text that is not at a hash sign or line end. *)
Theorem C90_text g s t m r : g = G10 \/ g = G11 -> plain_text s -> first_is 35 s = false -> first_is 10 s = false -> scan g [ScLine; EndSc] s = Ret (t, m, r) ->
  flex_scan Alltext s = Ret (Some t, m, after t Alltext, r).
Proof. intros G P H1 H2 E. exact (proj1 (text_token g s t m r G P H1 H2 E)). Qed.
Example C90_text_meets : flex_scan Alltext (lines ["a;b # c"; ""; ";"]) = Ret (Some ScLine, lines ["a;b # c"; ""; ""], Alltext, u ";").
Proof. apply (C90_text G10); [now left|apply plain_dec; vm_compute; reflexivity|reflexivity|reflexivity|vm_compute; reflexivity]. Qed.
(** In a text field a line with a character that star.l does not list, such as a form
    feed, has its start printed by flex's default rule and lost. *)
Theorem C90_dropped_refuted : exists s m r, scan G11 [ScLine; EndSc] s = Ret (ScLine, s, []) /\ flex_scan Alltext s = Ret (Some ScLine, m, Alltext, r) /\ length m < length s /\ r = [].
Proof. exists (u ("ab" ++ ff ++ "c" ++ lf)), (u (ff ++ "c" ++ lf)), []. split; [vm_compute; reflexivity|]. split; [vm_compute; reflexivity|]. split; [vm_compute; lia|reflexivity]. Qed.
(** The end of a file written with single carriage returns is an error. *)
Theorem C90_return_refuted : exists s, scan G11 item_follow s = Ret (End, [], []) /\ flex_scan Initial s = Ret (None, s, Initial, []).
Proof. exists (u cr). split; vm_compute; reflexivity. Qed.

(** ** C91: files *)
(** What the python scanner reads, the compiled one reads the same way. *)
Theorem C91_same_partial g s bs : g = G10 \/ g = G11 -> plain_text s -> no_hash_text s -> loops_apart s -> parse_file g s = Ret bs -> blocks_fit g bs -> flex_file s = Ret bs.
Proof. intros G P H A. exact (file_same g s G P H A bs). Qed.
Definition sample : str := lines ["#comment"; "data_a_b # hello"; ""; "_x 'a b'c d' _y ""q"" "; "loop_ #c"; "_a _b 'x''  y;z "; ";text 'x"; "more"; ""; "  last"; ";"; "stop"; "save_foo _z 1 save_"; "#"].
(** The conditions as tests. *)
Fixpoint hash_ok (a : bool) (s : str) : bool :=   (* a: an even number of line starts so far *)
  match s with
  | 10%N :: ((d :: _) as s') => (if (d =? 35)%N then a else true) && hash_ok (if (d =? 59)%N then negb a else a) s'
  | _ :: s' => hash_ok a s'
  | [] => true
  end.
Lemma hash_step a b' s : s = a ++ 10%N :: 35%N :: b' -> forall e, hash_ok e s = true -> (if Nat.even (semis a) then e else negb e) = true.
Proof.
  revert s. induction a as [|c a IH]; intros s -> e H.
  - cbn in H. now destruct e.
  - destruct (N.eq_dec c 10) as [->|Nc].
    + destruct a as [|d a].
      * cbn [app] in H. change (hash_ok e (10%N :: 10%N :: 35%N :: b')) with (true && hash_ok e (10%N :: 35%N :: b')) in H. cbn [andb] in H. exact (IH _ eq_refl e H).
      * cbn [app] in H. change (hash_ok e (10%N :: d :: a ++ 10%N :: 35%N :: b')) with ((if (d =? 35)%N then e else true) && hash_ok (if (d =? 59)%N then negb e else e) ((d :: a) ++ 10%N :: 35%N :: b')) in H.
        apply andb_prop in H. destruct H as [_ H]. specialize (IH _ eq_refl _ H). change (semis (10%N :: d :: a)) with ((if (d =? 59)%N then 1 else 0) + semis (d :: a)).
        destruct (d =? 59)%N; [|exact IH]. rewrite Nat.add_1_l, Nat.even_succ, <- Nat.negb_even. destruct (Nat.even (semis (d :: a))), e; try reflexivity; discriminate IH.
    + assert (hash_ok e (a ++ 10%N :: 35%N :: b') = true) as H'.
      { cbn [app] in H. destruct c as [|p]; [exact H|]. cbn [hash_ok] in H. destruct p as [p|p|]; try exact H. destruct p as [p|p|]; try exact H. destruct p as [p|p|]; try exact H. destruct p as [p|p|]; try exact H. exfalso. now apply Nc. }
      specialize (IH _ eq_refl e H'). assert (semis (c :: a) = semis a) as ->; [|exact IH]. destruct a as [|d a]; [reflexivity|]. cbn [semis]. apply N.eqb_neq in Nc. now rewrite Nc.
Qed.
Lemma hash_dec s : hash_ok true s = true -> no_hash_text s.
Proof. intros H a b E. pose proof (hash_step a b s E true H) as K. now destruct (Nat.even (semis a)). Qed.
Fixpoint loops_ok (s : str) : bool :=
  match s with
  | [] => true
  | c :: s' => negb (starts_with (u "loop_") (lower (firstn 5 s)) && match skipn 5 s with d :: _ => (d =? 95)%N || (d =? 35)%N | [] => false end) && loops_ok s'
  end.
Lemma loops_dec s : loops_ok s = true -> loops_apart s.
Proof.
  intros H a w c b E L. assert (length w = 5) as L5. { assert (length (lower w) = 5) as K by (rewrite L; reflexivity). unfold lower in K. now rewrite map_length in K. }
  revert s E H. induction a as [|k a IH]; intros s -> H.
  - destruct w as [|x w]; [discriminate|]. cbn [app loops_ok] in H. apply andb_prop in H. destruct H as [H _]. apply negb_true_iff in H.
    change (x :: w ++ c :: b) with ((x :: w) ++ c :: b) in H. rewrite firstn_app, skipn_app, L5, Nat.sub_diag, firstn_O, skipn_O in H. rewrite firstn_all2, skipn_all2, app_nil_r in H by lia. rewrite L in H. cbn [app] in H.
    change (starts_with (u "loop_") (u "loop_")) with true in H. cbn [andb] in H. apply orb_false_iff in H. destruct H as [H1 H2]. split; now apply N.eqb_neq.
  - cbn [app loops_ok] in H. apply andb_prop in H. destruct H as [_ H]. exact (IH _ eq_refl H).
Qed.
Example C91_meets : exists bs, parse_file G11 sample = Ret bs /\ flex_file sample = Ret bs /\ length bs = 1.
Proof.
  set (x := parse_file G11 sample). assert (exists bs, x = Ret bs) as (bs & E). { subst x. vm_compute. eexists. reflexivity. }
  exists bs. split; [exact E|]. assert (blocks_fit G11 bs /\ length bs = 1) as [F L].
  { subst x. vm_compute in E. injection E as <-. split; [|reflexivity]. intros b c i [<-|[]] Hc Hh. cbn [d_contents In] in Hc.
    destruct Hc as [<-|[<-|[]]]; inversion Hh as [? ? Hi|? ? c' ? Hc' Hh']; subst.
    - cbn [In] in Hi. decompose [or] Hi; subst; try contradiction; cbn [item_fit].
      + intros s Es. injection Es as <-. split; [vm_compute; discriminate|discriminate].
      + intros s Es. injection Es as <-. split; [vm_compute; discriminate|discriminate].
      + split; [discriminate|]. repeat (apply Forall_cons; [intros s Es; injection Es as <-; split; [vm_compute; discriminate|discriminate]|]). apply Forall_nil.
    - destruct Hc' as [<-|[]]. inversion Hh' as [? ? Hi|]; subst. destruct Hi as [<-|[]]. intros s Es. injection Es as <-. split; [vm_compute; discriminate|discriminate]. }
  split; [|exact L]. apply (C91_same_partial G11); [now right|apply plain_dec; vm_compute; reflexivity|apply hash_dec; vm_compute; reflexivity|apply loops_dec; vm_compute; reflexivity|exact E|exact F].
Qed.
(** A line of a text field that starts with a hash sign is lost by the python scanner, which
    skips comments everywhere, and kept by the compiled one. *)
Theorem C91_hash_refuted : exists s b1 b2, plain_text s /\ loops_apart s /\ parse_file G11 s = Ret b1 /\ flex_file s = Ret b2 /\ blocks_fit G11 b1 /\ b1 <> b2.
Proof.
  exists (lines ["data_a _x"; ";"; "a"; "#b"; "c"; ";"]), [DBlock (u "a") [CItems [Kv (u "_x") (VStr (lines [""; "a"; "c"]))]]], [DBlock (u "a") [CItems [Kv (u "_x") (VStr (lines [""; "a"; "#b"; "c"]))]]].
  split; [apply plain_dec; vm_compute; reflexivity|]. split; [apply loops_dec; vm_compute; reflexivity|]. split; [vm_compute; reflexivity|]. split; [vm_compute; reflexivity|]. split; [|intros K; discriminate K].
  intros b c i [<-|[]] [<-|[]] Hh. inversion Hh as [? ? Hi|]; subst. destruct Hi as [<-|[]]. intros s Es. injection Es as <-. split; [vm_compute; discriminate|discriminate].
Qed.
(** The word loop_ is not told from a name that follows it without a blank: a file that
    the python scanner reads is refused. *)
Theorem C91_glued_refuted : exists s1 s2 b1 b2, parse_file G11 s1 = Ret b1 /\ flex_file s1 = Raise SyntaxErr /\ parse_file G11 s2 = Ret b2 /\ flex_file s2 = Raise SyntaxErr
  /\ s1 = u "data_a loop__a 1" /\ s2 = lines ["data_a loop_#c"; "_a 1"].
Proof.
  exists (u "data_a loop__a 1"), (lines ["data_a loop_#c"; "_a 1"]), [DBlock (u "a") [CItems [Lp [u "_a"] [VStr (u "1")]]]], [DBlock (u "a") [CItems [Lp [u "_a"] [VStr (u "1")]]]].
  split; [vm_compute; reflexivity|]. split; [vm_compute; reflexivity|]. split; [vm_compute; reflexivity|]. split; [vm_compute; reflexivity|]. split; reflexivity.
Qed.
(** Values that only one of the two accepts: an opening bracket in grammar 1.0 and the word
    loop_ are refused by the compiled scanner; a value that starts with a brace, or with
    stop_ or global_, is refused by the python one. *)
Theorem C91_values_refuted : exists v b, parse_file G10 (u "data_a _x " ++ v) = Ret b /\ flex_file (u "data_a _x " ++ v) = Raise SyntaxErr /\ first_is 91 v = true
  /\ (exists v b, parse_file G11 (u "data_a _x " ++ v) = Ret b /\ flex_file (u "data_a _x " ++ v) = Raise SyntaxErr /\ v = u "loop_")
  /\ (exists v b, parse_file G11 (u "data_a _x " ++ v) = Raise SyntaxErr /\ flex_file (u "data_a _x " ++ v) = Ret b /\ first_is 123 v = true)
  /\ (exists v b, parse_file G11 (u "data_a _x " ++ v) = Raise SyntaxErr /\ flex_file (u "data_a _x " ++ v) = Ret b /\ v = u "stop_x").
Proof.
  exists (u "[b"), [DBlock (u "a") [CItems [Kv (u "_x") (VStr (u "[b"))]]]. split; [vm_compute; reflexivity|]. split; [vm_compute; reflexivity|]. split; [vm_compute; reflexivity|].
  split; [|split].
  - exists (u "loop_"), [DBlock (u "a") [CItems [Kv (u "_x") (VStr (u "loop_"))]]]. split; [vm_compute; reflexivity|]. split; vm_compute; reflexivity.
  - exists (u "{b"), [DBlock (u "a") [CItems [Kv (u "_x") (VStr (u "{b"))]]]. split; [vm_compute; reflexivity|]. split; vm_compute; reflexivity.
  - exists (u "stop_x"), [DBlock (u "a") [CItems [Kv (u "_x") (VStr (u "stop_x"))]]]. split; [vm_compute; reflexivity|]. split; vm_compute; reflexivity.
Qed.

(** ** C92: the compiled scanner on any text *)
(** Every call gives a token, and if it is not the token (error) then the text is divided
    into what was skipped, the token, and the rest; only the end of the text has the
    empty token. *)
Theorem C92_total c s : exists t m c' r, flex_scan c s = Ret (t, m, c', r) /\ (t <> None -> exists w, s = w ++ m ++ r /\ (m = [] -> t = Some End)).
Proof.
  destruct (flex_total_go (length s) c s (le_n _)) as (t & m & c' & r & F & w & D). exists t, m, c', r. split; [exact F|]. intros Nt. destruct D as [D|D]; [|contradiction]. now exists w.
Qed.
(** Outside text fields only blanks and comments are skipped, and only the start of a text
    field changes the state. *)
Theorem C92_skipped s t m c r : flex_scan Initial s = Ret (Some t, m, c, r) -> exists w, s = w ++ m ++ r /\ gap w /\ (c = Alltext <-> t = StartSc).
Proof.
  intros E. destruct (flex_gap _ _ _ _ _ _ E) as (w & E1 & Gw & ->). exists w. split; [exact E1|]. split; [exact Gw|]. split; [destruct t; cbn; congruence|intros ->; reflexivity].
Qed.
(** Inside a text field the tokens are lines, the closing semicolon and the end of the
    text, and only the semicolon leaves the text field, whatever was skipped before. *)
Theorem C92_inside s t m c r : flex_scan Alltext s = Ret (t, m, c, r) ->
  (t = Some ScLine \/ t = Some EndSc \/ t = Some End) /\ (c = Initial <-> t = Some EndSc) /\ exists w, s = w ++ m ++ r.
Proof.
  intros E. destruct (flex_inside _ _ _ _ _ _ E) as (t0 & w & -> & Es & Ht & ->). split; [|split; [|now exists w]]; destruct Ht as [<-|[<-|[<-|[]]]]; cbn [after]; try tauto; split; intros H; (discriminate H || reflexivity).
Qed.
Example C92_inside_meets : flex_scan Alltext (1%N :: 1%N :: lines ["a b"; ";x"]) = Ret (Some ScLine, 1%N :: lines ["a b"; ""], Alltext, u ";x") /\ flex_scan Alltext (u ";x") = Ret (Some EndSc, u ";", Initial, u "x").
Proof. split; vm_compute; reflexivity. Qed.
(** The parser ends on every text. *)
Theorem C92_ends s : flex_file s <> Raise OutOfFuel.
Proof. exact (flex_file_ends s). Qed.
(** What follows a NUL character is not read at all. *)
Theorem C92_nul a b : flex_file (a ++ 0%N :: b) = flex_file a.
Proof.
  assert (until_nul (a ++ 0%N :: b) = until_nul a) as E; [|unfold flex_file; now rewrite E]. induction a as [|c a IH]; cbn [app until_nul]; [reflexivity|]. now rewrite IH.
Qed.
Example C92_nul_meets : exists bs, flex_file (u "data_a _x 1" ++ 0%N :: u " _y") = Ret bs /\ length bs = 1 /\ flex_file (u "data_a _x 1 _y") = Raise SyntaxErr.
Proof. eexists. split; [vm_compute; reflexivity|]. split; vm_compute; reflexivity. Qed.
Example C92_meets : flex_scan Initial (lines ["# a"; " #b"; ";text"; ""; "line"]) = Ret (Some StartSc, lines [""; ";text"; ""; ""], Alltext, u "line") /\ flex_scan Initial (u "$x") = Ret (None, u "$", Initial, [])
  /\ flex_file (u "data_x save_a") = Raise SyntaxErr.
Proof. split; [vm_compute; reflexivity|]. split; vm_compute; reflexivity. Qed.

Definition flex_theorems := (C90_outside_partial, C90_text, C90_dropped_refuted, C90_return_refuted, C91_same_partial, C91_hash_refuted, C91_glued_refuted, C91_values_refuted, C92_total, C92_skipped, C92_inside, C92_nul, C92_ends).
Print Assumptions flex_theorems.
