(** The parsers in python on any text, in the terms of GrammarSpec. *)
From Coq Require Import String Ascii List NArith PeanoNat Bool Lia.
From Verif Require Import PyBase RegexModel ScanModel ScanSpec ReadModel ParseModel ParseSpec GrammarSpec GrammarProofs GrammarProofs2 GrammarProofs3 GrammarProofs4.
Import ListNotations.
Open Scope string_scope. Open Scope list_scope. Open Scope nat_scope.

Definition lf : string := String (ascii_of_nat 10) EmptyString.
Definition lines (l : list string) : str := u (String.concat lf l).

(** ** C93: parsing ends *)
(** Every text is read or refused with a syntax error: no endless loop, and never the
    NotImplementedError of the scanner for a token looked at with another restriction. *)
Theorem C93_ends g s : (exists ds, parse_file g s = Ret ds) \/ parse_file g s = Raise SyntaxErr.
Proof. exact (parse_file_ends g s). Qed.
Example C93_meets : parse_file G20 (u "data_a _x [ 1 [ 2 {'k':[3]}") = Raise SyntaxErr /\ parse_file G11 (u "data_a save_b save_c _x 1 save_") = Raise SyntaxErr
  /\ exists ds, parse_file G11 (u "data_a save_b save_c _x 1 save_ save_") = Ret ds /\ length ds = 1.
Proof. split; [vm_compute; reflexivity|]. split; [vm_compute; reflexivity|]. eexists. split; vm_compute; reflexivity. Qed.

(** ** C94: what is read is in the text *)
(** The text is a sequence of tokens, with only blanks and comments between them, of which the
    data blocks are made by the rules of the grammar; brackets, words, quotes and lines of text
    fields look as they should. *)
Theorem C94_read g s ds : parse_file g s = Ret ds ->
  exists ts r, laid g (ts ++ one End []) s r /\ (r = [] \/ r = [10%N]) /\ blocks_toks g ds ts /\ Forall (fun x => token_text g (fst x) (snd x)) ts.
Proof.
  intros H. destruct (parse_file_toks g s ds H) as (ts & r & L & E & B). exists ts, r. split; [exact L|]. split; [exact E|]. split; [exact B|].
  exact (proj1 (proj1 (Forall_app _ _ _) (laid_texts g _ _ _ L))).
Qed.
(** Datanames are an underscore and the characters of names; blocks and frames have names. *)
Theorem C94_names g s ds : parse_file g s = Ret ds -> Forall (readable_name g) (all_datanames ds) /\ Forall (readable_heading g) (all_headings ds).
Proof. exact (read_names g s ds). Qed.
Definition sample : str := lines ["data_one # note"; "_a 'b c' loop_ _d _e"; "1 2"; ";three"; ";"; "4"; "save_f _g [ 1 {'k':2} ] save_"; ""].
Example C94_meets : exists ds, parse_file G20 sample = Ret ds /\ all_datanames ds = [u "_a"; u "_d"; u "_e"; u "_g"] /\ all_headings ds = [u "one"; u "f"].
Proof. eexists. split; [vm_compute; reflexivity|]. split; vm_compute; reflexivity. Qed.
(** In the STAR2 grammar a pair of a table that has no comma before it makes the earlier
    ones vanish (src/YappsStarParser.nw 445-456); the same text is read whole by the CIF2 grammar. *)
Theorem C94_pairs_refuted : exists s d1 d2, parse_file GS2 s = Ret [DBlock (u "x") [CItems [Kv (u "_y") (VDict d1)]]]
  /\ parse_file G20 s = Ret [DBlock (u "x") [CItems [Kv (u "_y") (VDict d2)]]] /\ length d1 = 1 /\ length d2 = 2.
Proof. exists (u "data_x _y {'a':1 'b':2}"). eexists. eexists. split; [vm_compute; reflexivity|]. split; [vm_compute; reflexivity|]. split; reflexivity. Qed.

Definition grammar_theorems := (C93_ends, C94_read, C94_names, C94_pairs_refuted).
Print Assumptions grammar_theorems.
