(** A file written by hand is read as the grammar says, in the terms of WholeSpec. *)
From Coq Require Import String Ascii List NArith PeanoNat Bool Lia.
From Verif Require Import PyBase RegexModel ScanModel ReadModel ParseModel ParseSpec GrammarSpec WholeSpec WholeProofs6 WholeProofs7.
Import ListNotations.
Open Scope string_scope. Open Scope list_scope. Open Scope nat_scope.

(** ** C112: every text the grammar derives is read, in one way *)
(** A text made of tokens, with blanks, line ends and comments between them as they like,
    of which the grammar makes data blocks is read as these blocks. *)
Theorem C112_complete g ts s ds : set_out g ts s -> blocks_toks g ds ts -> Forall (fun d => grouped (d_contents d)) ds -> parse_file g s = Ret ds.
Proof. exact (file_read g ts s ds). Qed.
(** What is read always has its items in groups as long as can be. *)
Theorem C112_grouped g s ds : parse_file g s = Ret ds -> Forall (fun d => grouped (d_contents d)) ds.
Proof. exact (file_grouped g s ds). Qed.
(** Two ways of cutting a text into tokens give the same blocks. *)
Theorem C112_one_reading g s ts1 ds1 ts2 ds2 : set_out g ts1 s -> blocks_toks g ds1 ts1 -> Forall (fun d => grouped (d_contents d)) ds1 ->
  set_out g ts2 s -> blocks_toks g ds2 ts2 -> Forall (fun d => grouped (d_contents d)) ds2 -> ds1 = ds2.
Proof. intros S1 B1 G1 S2 B2 G2. pose proof (C112_complete g ts1 s ds1 S1 B1 G1) as E1. rewrite (C112_complete g ts2 s ds2 S2 B2 G2) in E1. now injection E1. Qed.
(** What stands between the tokens does not matter. *)
Theorem C112_blanks g ts ds s1 s2 : blocks_toks g ds ts -> Forall (fun d => grouped (d_contents d)) ds -> set_out g ts s1 -> set_out g ts s2 -> parse_file g s1 = parse_file g s2.
Proof. intros B G S1 S2. rewrite (C112_complete g ts s1 ds S1 B G). symmetry. exact (C112_complete g ts s2 ds S2 B G). Qed.
Definition nl : str := [10%N].
Definition ex_toks : list lexeme :=
  [(DataHeading, u "data_a"); (DataName, u "_b"); (OSquare, u "["); (Value1, u "1"); (OCurl, u "{"); (SingleQ, u "'k'"); (Colon, u ":"); (Value1, u "2"); (CCurl, u "}"); (CSquare, u "]");
   (SaveHeading, u "save_f"); (LBlock, u "loop_"); (DataName, u "_c"); (Value1, u "x"); (StartSc, nl ++ u ";four" ++ nl); (ScLine, u "five" ++ nl); (EndSc, u ";"); (SaveEnd, u "save_")].
Definition ex_gaps : list str := [[]; u " # n" ++ nl; u " "; []; u " "; []; []; []; []; []; nl; nl; u " "; u " "; []; []; []; nl; nl].
Definition ex_text : str := concat (map (fun x => fst x ++ snd x) (combine ex_gaps (map snd ex_toks ++ [[]]))).
Definition ex_blocks : list dblock :=
  [DBlock (u "a") [CItems [Kv (u "_b") (VSL [VStr (u "1"); VDict [(u "k", VStr (u "2"))]])];
                   CFrame (u "f") [CItems [Lp [u "_c"] [VStr (u "x"); VStr (u "four" ++ nl ++ u "five")]]]]].
Lemma set_next g w t m s ts x : x = w ++ m ++ s -> spaced w (m ++ s) -> (t = ScLine \/ t = EndSc -> w = []) -> token_at g t m s -> set_out g ts s -> set_out g ((t, m) :: ts) x.
Proof. intros ->. now constructor. Qed.
Ltac gap := repeat first [apply sp_nil | apply sp_blank; [tauto|] | apply sp_line; [vm_compute; discriminate|]].
Ltac tok_no := let H := fresh in intros [H|H]; discriminate H.
Ltac each := repeat (constructor; [vm_compute; intuition discriminate|]); constructor.
Ltac place_word := left; eexists; eexists; split; [vm_compute; reflexivity|]; split; [reflexivity|]; split; [vm_compute; intuition discriminate|]; split; [each|]; split;
  [intros (w & r & Hw & E); cbn in Hw; repeat (destruct Hw as [<-|Hw]; [vm_compute in E; discriminate E|]); destruct Hw|]; split; [vm_compute; discriminate|vm_compute; tauto].
Example ex_set_out : set_out G20 ex_toks ex_text.
Proof.
  unfold ex_toks.
  eapply (set_next G20 [] DataHeading (u "data_a")); [vm_compute; reflexivity|apply sp_nil|tok_no| |].
  { exists (u "data_"), (u "a"). split; [reflexivity|]. split; [reflexivity|]. split; [|reflexivity]. split; [discriminate|repeat constructor]. }
  eapply (set_next G20 (u " # n" ++ nl) DataName (u "_b")); [reflexivity| |tok_no| |].
  { apply sp_blank; [tauto|]. apply (sp_comment (u " n") nl); [cbn; intuition discriminate|cbn; intuition discriminate|right; left; reflexivity|gap]. }
  { split; [|reflexivity]. eexists. split; [reflexivity|]. split; [discriminate|repeat constructor]. }
  eapply (set_next G20 (u " ") OSquare (u "[")); [reflexivity|gap|tok_no|split; [now left|reflexivity]|].
  eapply (set_next G20 [] Value1 (u "1")); [reflexivity|gap|tok_no|place_word|].
  eapply (set_next G20 (u " ") OCurl (u "{")); [reflexivity|gap|tok_no|split; [now left|reflexivity]|].
  eapply (set_next G20 [] SingleQ (u "'k'")); [reflexivity|gap|tok_no| |].
  { split; [now left|]. exists 39%N, (u "k"). split; [now left|]. split; [reflexivity|]. split; [|discriminate].
    constructor; [|constructor]. split; [|discriminate]. intros [[H|H]|[_ H]]; discriminate H. }
  eapply (set_next G20 [] Colon (u ":")); [reflexivity|gap|tok_no|split; [now left|reflexivity]|].
  eapply (set_next G20 [] Value1 (u "2")); [reflexivity|gap|tok_no|place_word|].
  eapply (set_next G20 [] CCurl (u "}")); [reflexivity|gap|tok_no|split; [now left|reflexivity]|].
  eapply (set_next G20 [] CSquare (u "]")); [reflexivity|gap|tok_no|split; [now left|reflexivity]|].
  eapply (set_next G20 nl SaveHeading (u "save_f")); [reflexivity|gap|tok_no| |].
  { exists (u "save_"), (u "f"). split; [reflexivity|]. split; [reflexivity|]. split; [|reflexivity]. split; [discriminate|repeat constructor]. }
  eapply (set_next G20 nl LBlock (u "loop_")); [reflexivity|gap|tok_no|split; [reflexivity|left; reflexivity]|].
  eapply (set_next G20 (u " ") DataName (u "_c")); [reflexivity|gap|tok_no| |].
  { split; [|reflexivity]. eexists. split; [reflexivity|]. split; [discriminate|repeat constructor]. }
  eapply (set_next G20 (u " ") Value1 (u "x")); [reflexivity|gap|tok_no|place_word|].
  eapply (set_next G20 [] StartSc (nl ++ u ";four" ++ nl)); [reflexivity|gap|tok_no| |].
  { exists nl, (u "four"), nl. split; [reflexivity|]. split; [now left|]. split; [each|]. split; [discriminate|]. split; [constructor; [now left|constructor]|]. vm_compute. intuition discriminate. }
  eapply (set_next G20 [] ScLine (u "five" ++ nl)); [reflexivity|gap|reflexivity| |].
  { exists 102%N, (u "ive"), nl. split; [reflexivity|]. split; [discriminate|]. split; [discriminate|]. split; [intros [H|H]; discriminate H|]. split; [each|]. split; [discriminate|].
    split; [constructor; [now left|constructor]|]. vm_compute. intuition discriminate. }
  eapply (set_next G20 [] EndSc (u ";")); [reflexivity|gap|reflexivity|reflexivity|].
  eapply (set_next G20 nl SaveEnd (u "save_") nl); [reflexivity|gap|tok_no|split; reflexivity|].
  apply so_end. gap.
Qed.
Example ex_derived : blocks_toks G20 ex_blocks ex_toks.
Proof.
  assert (value_toks G20 (VSL [VStr (u "1"); VDict [(u "k", VStr (u "2"))]])
    [(OSquare, u "["); (Value1, u "1"); (OCurl, u "{"); (SingleQ, u "'k'"); (Colon, u ":"); (Value1, u "2"); (CCurl, u "}"); (CSquare, u "]")]) as HV.
  { apply (v_list G20 (u "[") (u "]") [VStr (u "1"); VDict [(u "k", VStr (u "2"))]] [(Value1, u "1"); (OCurl, u "{"); (SingleQ, u "'k'"); (Colon, u ":"); (Value1, u "2"); (CCurl, u "}")]); [now left|].
    apply (l_next G20 [VStr (u "1")] [(Value1, u "1")] (VDict [(u "k", VStr (u "2"))]) [(OCurl, u "{"); (SingleQ, u "'k'"); (Colon, u ":"); (Value1, u "2"); (CCurl, u "}")]).
    - apply (l_next G20 [] [] (VStr (u "1")) [(Value1, u "1")]); [apply l_nil|apply (v_plain G20 (u "1"))].
    - apply (v_table G20 (u "{") (u "}") [(u "k", VStr (u "2"))] [(SingleQ, u "'k'"); (Colon, u ":"); (Value1, u "2")]); [now left|].
      apply (t_next G20 [] [] (u "k") [(SingleQ, u "'k'")] (u ":") (VStr (u "2")) [(Value1, u "2")]); [now right|apply t_nil|apply (key_single (u "'k'"))|apply (v_plain G20 (u "2"))]. }
  apply (bs_cons G20 (u "data_a") [CItems [Kv (u "_b") (VSL [VStr (u "1"); VDict [(u "k", VStr (u "2"))]])]; CFrame (u "f") [CItems [Lp [u "_c"] [VStr (u "x"); VStr (u "four" ++ nl ++ u "five")]]]] (tl ex_toks) [] []); [|constructor].
  apply (c_items G20 false [Kv (u "_b") (VSL [VStr (u "1"); VDict [(u "k", VStr (u "2"))]])] (firstn 9 (tl ex_toks)) _ (skipn 9 (tl ex_toks))); [discriminate| |].
  { apply (is_cons G20 (Kv (u "_b") (VSL [VStr (u "1"); VDict [(u "k", VStr (u "2"))]])) (firstn 9 (tl ex_toks)) [] []); [|constructor]. exact (i_pair G20 (u "_b") _ _ HV). }
  apply (c_frame G20 false (u "save_f") [CItems [Lp [u "_c"] [VStr (u "x"); VStr (u "four" ++ nl ++ u "five")]]] (firstn 6 (skipn 11 ex_toks)) (u "save_") [] []); [discriminate| |constructor].
  apply (c_items G20 true [Lp [u "_c"] [VStr (u "x"); VStr (u "four" ++ nl ++ u "five")]] (firstn 6 (skipn 11 ex_toks)) [] []); [discriminate| |constructor].
  apply (is_cons G20 (Lp [u "_c"] [VStr (u "x"); VStr (u "four" ++ nl ++ u "five")]) (firstn 6 (skipn 11 ex_toks)) [] []); [|constructor].
  apply (i_loop G20 (u "loop_") [u "_c"] [VStr (u "x"); VStr (u "four" ++ nl ++ u "five")] (firstn 4 (skipn 13 ex_toks))); [discriminate|].
  apply (vs_cons G20 (VStr (u "x")) [(Value1, u "x")] [VStr (u "four" ++ nl ++ u "five")] (firstn 3 (skipn 14 ex_toks))); [apply (v_plain G20 (u "x"))|].
  apply (vs_cons G20 (VStr (u "four" ++ nl ++ u "five")) (firstn 3 (skipn 14 ex_toks)) [] []); [|constructor].
  exact (v_text G20 (nl ++ u ";four" ++ nl) [u "five" ++ nl] (u ";")).
Qed.
Example C112_meets : parse_file G20 ex_text = Ret ex_blocks.
Proof. apply (C112_complete G20 ex_toks); [exact ex_set_out|exact ex_derived|]. unfold ex_blocks. constructor; [|constructor]. repeat constructor. Qed.

Definition whole_theorems := (C112_complete, C112_grouped, C112_one_reading, C112_blanks).
Print Assumptions whole_theorems.
