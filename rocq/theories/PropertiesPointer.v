(** C131: reports of syntax errors. *)
From Coq Require Import String Ascii List NArith PeanoNat Bool Lia.
From Verif Require Import PyBase PointerModel PointerSpec PointerProofs.
Import ListNotations.
Open Scope nat_scope.

(** The line and the column are those of the scanner's place. *)
Theorem C131_place : forall s, sc_pos s <= length (sc_input s) ->
  at_place (sc_input s) (sc_pos s) (line_number s) (column_number s)
  /\ forall a b, at_place (sc_input s) (sc_pos s) a b -> a = line_number s /\ b = column_number s.
Proof. intros s H. pose proof (coords s H) as C. split; [exact C|]. intros a b D. exact (place_unique _ _ _ _ _ _ D C). Qed.

Definition nl : str := [10%N].
Definition three_lines : str := u "data_a" ++ nl ++ u "_b $" ++ nl ++ u "_c 1".
Example C131_place_meets : let s := Sc three_lines 10 [] in sc_pos s <= length (sc_input s) /\ line_number s = 2 /\ column_number s = 3.
Proof. repeat split; vm_compute; reflexivity || (vm_compute; lia). Qed.

(** The pointer stands under the character of the place: the two lines printed show
    what is on its line before it and after it, and the pointer is where they meet. *)
Theorem C131_pointer_partial : forall text p, p <= length text -> ~ In 13%N (skipn (p - 80) (firstn p text)) ->
  exists shown col, shows text p shown col /\
    print_line_with_pointer text p = [u ">  " ++ shown; u ">  " ++ repeat 32%N col ++ u "^"] /\
    match nth_error text p with
    | Some c => if break c then col = length shown else nth_error shown col = Some c
    | None => p = length text
    end.
Proof.
  intros text p H C. destruct (printed_spec text p H C) as (s & c & Sh & E). exists s, c. split; [exact Sh|]. split; [exact E|].
  pose proof (under_pointer _ _ _ _ Sh) as U. destruct (nth_error text p) eqn:N1; [exact U|].
  apply nth_error_None in N1. lia.
Qed.
Example C131_pointer_meets : 10 <= length three_lines /\ ~ In 13%N (skipn (10 - 80) (firstn 10 three_lines)) /\
  print_line_with_pointer three_lines 10 = [u ">  _b $"; u ">     ^"].
Proof. split; [vm_compute; lia|]. split; [|vm_compute; reflexivity]. vm_compute. intuition discriminate. Qed.
(** A long line is cut. *)
Definition long_line : str := repeat 97%N 100 ++ u "X" ++ repeat 98%N 30.
Example C131_pointer_long : print_line_with_pointer long_line 100 =
  [u ">  ..." ++ repeat 97%N 56 ++ u "X" ++ repeat 98%N 30; u ">  " ++ repeat 32%N 59 ++ u "^"].
Proof. vm_compute. reflexivity. Qed.

(** In a text with CR LF line ends the piece shown begins with the LF, so that the
    line itself is printed without the mark in front and the pointer is one too far to the
    right of its character. *)
Theorem C131_pointer_refuted : exists text p shown col, p <= length text /\
  print_line_with_pointer text p = [u ">  " ++ 10%N :: shown; u ">  " ++ repeat 32%N col ++ u "^"] /\
  nth_error text p = Some 36%N /\ nth_error shown (col - 1) = Some 36%N /\ nth_error shown col <> Some 36%N.
Proof.
  exists (u "data_a" ++ [13; 10]%N ++ u "_b $c" ++ [13; 10]%N), 11, (u "_b $c"), 4.
  split; [vm_compute; lia|]. split; [vm_compute; reflexivity|]. split; [reflexivity|]. split; [reflexivity|discriminate].
Qed.
(** One CR anywhere in the 80 characters before the place brings the lines in between
    into the picture. *)
Theorem C131_lines_refuted : exists text p shown rest, p <= length text /\
  print_line_with_pointer text p = [shown; rest] /\ In 10%N shown /\ count_ch 10 shown = 2.
Proof.
  exists (u "x" ++ [13%N] ++ u "data_a" ++ nl ++ u "_b 1" ++ nl ++ u "_c $"), 17. do 2 eexists.
  split; [vm_compute; lia|]. split; [vm_compute; reflexivity|]. split; [vm_compute; tauto|vm_compute; reflexivity].
Qed.
(** The lines printed do not fit the 80 columns that the code assumes. *)
Theorem C131_width_refuted : exists text p shown rest, p <= length text /\ ~ In 13%N text /\
  print_line_with_pointer text p = [shown; rest] /\ 80 < length shown.
Proof.
  exists (repeat 97%N 120), 50. do 2 eexists. split; [vm_compute; lia|].
  split; [intros I; apply repeat_spec in I; discriminate I|]. split; [vm_compute; reflexivity|vm_compute; lia].
Qed.

(** The report: the place, then for each rule that was being parsed the line where it
    began, or without rules the line of the error. *)
Theorem C131_report : forall e s,
  (e_context e = [] -> print_error e s =
     Ret (PPlace (line_number s) (column_number s) (e_msg e) :: map PLine (print_line_with_pointer (sc_input s) (e_charpos e)))) /\
  (e_context e <> [] -> (sc_pos s = 0 \/ forall i r, In (i, r) (e_context e) -> i < length (sc_tokens s)) ->
   exists ps, length ps = length (e_context e) /\
     (forall n i r, nth_error (e_context e) n = Some (i, r) -> exists p, nth_error ps n = Some p /\
       (sc_pos s = 0 /\ p = 0 \/ sc_pos s <> 0 /\ exists t, nth_error (sc_tokens s) i = Some t /\ p = t_start t)) /\
     print_error e s = Ret (PPlace (line_number s) (column_number s) (e_msg e) ::
       flat_map (fun x => PWhile (snd (fst x)) :: map PLine (print_line_with_pointer (sc_input s) (snd x))) (combine (e_context e) ps))).
Proof.
  intros e s. unfold print_error. split.
  - intros ->. reflexivity.
  - intros N1 H. destruct (print_context_spec _ _ H) as (ps & L & A & E). exists ps. split; [exact L|]. split; [exact A|].
    destruct (e_context e); [congruence|]. rewrite E. reflexivity.
Qed.
(** It fails, and hides the syntax error, exactly if a rule began at a token that was
    never read. *)
Theorem C131_report_fails : forall e s, (exists x, print_error e s = Raise x) <->
  sc_pos s <> 0 /\ exists i r, In (i, r) (e_context e) /\ length (sc_tokens s) <= i.
Proof.
  intros e s. split.
  - intros (x & H). unfold print_error in H. destruct (e_context e) as [|a c] eqn:E; [discriminate H|].
    destruct (Nat.eq_dec (sc_pos s) 0) as [Z|Z].
    + exfalso. destruct (print_context_spec (a :: c) s (or_introl Z)) as (ps & _ & _ & Q). rewrite Q in H. discriminate H.
    + split; [exact Z|].
      destruct (forallb (fun y : nat * str => fst y <? length (sc_tokens s)) (a :: c)) eqn:F.
      * exfalso. rewrite forallb_forall in F.
        destruct (print_context_spec (a :: c) s) as (ps & _ & _ & Q).
        { right. intros i r I. specialize (F _ I). apply Nat.ltb_lt in F. exact F. }
        rewrite Q in H. discriminate H.
      * assert (X : existsb (fun y : nat * str => length (sc_tokens s) <=? fst y) (a :: c) = true).
        { clear H E. remember (a :: c) as l eqn:El. clear El a c. induction l as [|y l IH]; [discriminate F|].
          cbn [forallb existsb] in *. destruct (fst y <? length (sc_tokens s)) eqn:G; cbn [andb] in F.
          - rewrite (IH F). apply orb_true_r.
          - apply Nat.ltb_ge in G. apply Nat.leb_le in G. now rewrite G. }
        apply existsb_exists in X. destruct X as ([i r] & I & L). apply Nat.leb_le in L. exists i, r. split; [exact I|exact L].
  - intros (Z & i & r & I & L). exists IndexErr. unfold print_error.
    destruct (e_context e) as [|a c] eqn:E; [destruct I|]. rewrite (print_context_fails (a :: c) s i r Z I L). reflexivity.
Qed.
Definition toks : list token := [(0, 6, u "data_heading", u "data_a"); (7, 9, u "data_name", u "_b"); (10, 11, u "data_value_1", u "$")].
Definition err : syntax_error := SE 10 (u "Need one of data_name") [(2, u "data"); (0, u "input")].
Example C131_report_meets : (forall i r, In (i, r) (e_context err) -> i < length toks) /\
  print_error err (Sc three_lines 11 toks) = Ret
    [PPlace 2 4 (u "Need one of data_name"); PWhile (u "data"); PLine (u ">  _b $"); PLine (u ">     ^");
     PWhile (u "input"); PLine (u ">  data_a"); PLine (u ">  ^")].
Proof. split; [|vm_compute; reflexivity]. intros i r [X | [X | []]]; injection X as <- <-; vm_compute; lia. Qed.

(** With the compiled scanner, whose place the runtime does not know, every error is
    reported on line 1, column 0, and every rule is said to begin there. *)
Theorem C131_compiled : forall e input tokens, exists l, print_error e (Sc input 0 tokens) = Ret (PPlace 1 0 (e_msg e) :: l) /\
  (e_context e <> [] -> l = flat_map (fun c => PWhile (snd c) :: map PLine (print_line_with_pointer input 0)) (e_context e)).
Proof.
  intros e input tokens. unfold print_error. cbn [sc_input].
  destruct (e_context e) as [|a c].
  - eexists. split; [reflexivity|]. congruence.
  - generalize (a :: c) as k. intros k.
    assert (E : print_context k (Sc input 0 tokens) = Ret (flat_map (fun c => PWhile (snd c) :: map PLine (print_line_with_pointer input 0)) k)).
    { induction k as [|[i r] k IH]; [reflexivity|]. cbn [print_context]. unfold prev_char_pos at 1. cbn [sc_pos Nat.eqb obind]. rewrite IH. reflexivity. }
    rewrite E. eexists. split; [reflexivity|]. intros _. reflexivity.
Qed.

(** The tokens of a report are the last ones, in order, ten if there are as many. *)
Theorem C131_last_tokens : forall s, exists earlier, sc_tokens s = earlier ++ last_tokens s /\
  length (last_tokens s) = min 10 (length (sc_tokens s)).
Proof. exact last_tokens_spec. Qed.
Example C131_last_meets : last_tokens (Sc three_lines 11 toks) = toks /\ length (last_tokens (Sc [] 0 (toks ++ toks ++ toks ++ toks))) = 10.
Proof. split; vm_compute; reflexivity. Qed.

Definition pointer_theorems := (C131_place, C131_pointer_partial, C131_pointer_refuted, C131_lines_refuted, C131_width_refuted,
  C131_report, C131_report_fails, C131_compiled, C131_last_tokens).
Print Assumptions pointer_theorems.
