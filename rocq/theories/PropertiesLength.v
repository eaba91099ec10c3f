(** C134: the lengths of lines asked for when a file is written. *)
From Coq Require Import String Ascii List NArith ZArith PeanoNat Bool Lia.
From Verif Require Import PyBase StarBlockModel StarBlockSpec ScanModel FormatModel WriteModel CollectionModel CollectionSpec FileModel LengthModel LengthSpec LengthProofs.
Import ListNotations.
Open Scope string_scope.
Open Scope list_scope.

(** A length to wrap at that is at most that of the file: every block is told the
    lengths, the grammar and the template of the file, and the text is written with the
    length of the file. *)
Theorem C134_written : forall comment w f, (w <= f_max f)%Z -> exists f',
  write_with comment w 0 f = (f', write_out (f_max f) (f_hints f) (if str_eqb comment [] then f_header f else comment) (f_coll f)) /\
  Forall2 (ready (c_gram (f_coll f)) (f_hints f) w (f_max f)) (f_blocks f) (f_blocks f') /\
  f_coll f' = f_coll f /\ f_max f' = f_max f /\ f_hints f' = f_hints f /\ f_header f' = f_header f.
Proof.
  intros comment w f H. unfold write_with. cbn [Z.eqb negb].
  destruct (prepare_ok (c_gram (f_coll f)) (f_hints f) w (f_max f) (f_blocks f) H) as (l & -> & F). cbn [fst snd obind].
  exists (set_fblocks l f). split; [|split; [exact F|split; [reflexivity|split; [reflexivity|split; reflexivity]]]].
  destruct comment; reflexivity.
Qed.

(** A greater one is an error, unless the file is empty: the first block is told the
    grammar and the template, nothing else is changed. *)
Theorem C134_refused : forall comment w f s l, (f_max f < w)%Z -> f_blocks f = s :: l -> exists f' s',
  write_with comment w 0 f = (f', Raise StarErr) /\ f_blocks f' = s' :: l /\
  told (c_gram (f_coll f)) (f_hints f) s s' /\ z_wrap s' = z_wrap s /\ z_max s' = z_max s /\
  f_coll f' = f_coll f /\ f_max f' = f_max f /\ f_hints f' = f_hints f /\ f_header f' = f_header f.
Proof.
  intros comment w f s l H E. unfold write_with. cbn [Z.eqb negb]. rewrite E.
  destruct (prepare_bad (c_gram (f_coll f)) (f_hints f) w (f_max f) s l H) as (s' & -> & A & B & C). cbn [fst snd obind].
  eexists _, s'. split; [reflexivity|]. split; [reflexivity|]. split; [exact A|]. split; [exact B|]. split; [exact C|].
  split; [reflexivity|split; [reflexivity|split; reflexivity]].
Qed.

(** The length to wrap at has no influence on the text. *)
Theorem C134_same_text : forall comment w1 w2 f, (w1 <= f_max f)%Z -> (w2 <= f_max f)%Z -> snd (write_with comment w1 0 f) = snd (write_with comment w2 0 f).
Proof.
  intros comment w1 w2 f H1 H2. destruct (C134_written comment w1 f H1) as (f1 & -> & _). destruct (C134_written comment w2 f H2) as (f2 & -> & _). reflexivity.
Qed.

Definition item (n v : str) : block := fst (add_item n (VStr v) false (empty_block true 75 false)).
Definition two_blocks (g : grammar) : coll := run_cops [KNew (u "a") (item (u "_length.of_a_line") (repeat 120%N 30)) true None; KNew (u "b") (item (u "_y") (u "2")) true None; KGrammar g] (new_coll StdCif Instance false).
Definition two (g : grammar) (m : Z) : ofile := OFile (two_blocks g) (file_max m) [] [new_settings; new_settings] (u "#").
(** What C134_written and C134_refused ask for. *)
Example C134_meets : length (c_dict (f_coll (two G11 0))) = 2%nat /\ (80 <= f_max (two G11 0))%Z /\ (exists text, snd (write_with [] 80 0 (two G11 0)) = Ret text /\ (50 < length text)%nat) /\
  (f_max (two G11 72) < 80)%Z /\ f_blocks (two G11 72) = [new_settings; new_settings] /\ (72 <= f_max (two G11 72))%Z.
Proof.
  split; [vm_compute; reflexivity|]. split; [vm_compute; discriminate|]. split.
  { eexists. split; [vm_compute; reflexivity|]. apply Nat.ltb_lt. vm_compute. reflexivity. }
  split; [vm_compute; reflexivity|]. split; [reflexivity|]. vm_compute. discriminate.
Qed.

(** A file can not be written with the default arguments if its own maximum is less than 80, though it has only
    shorter lines: the length to wrap at stays 80. *)
Theorem C134_short_refuted : exists f text, f_max f = 72%Z /\ snd (write_with [] 72 0 f) = Ret text /\ ~ too_long 72 text /\ snd (write_with [] 80 0 f) = Raise StarErr.
Proof.
  exists (OFile (run_cops [KNew (u "b") (item (u "_y") (u "2")) true None; KGrammar G11] (new_coll StdCif Instance false)) (file_max 72) [] [new_settings] (u "#")).
  eexists. split; [reflexivity|]. split; [vm_compute; reflexivity|]. split; [|vm_compute; reflexivity].
  intros (a & l & b & E & _ & L). assert (X := f_equal (@length N) E). rewrite !app_length in X. cbn [length] in X. lia.
Qed.

(** The argument maxoutlength can not be used: with any value but 0 the call fails, even with that which
    the file has. *)
Theorem C134_max_refuted : exists f text, f_max f = 2048%Z /\ snd (write_with [] 80 0 f) = Ret text /\
  forall comment w m, m <> 0%Z -> write_with comment w m f = (f, Raise AttributeErr).
Proof.
  exists (two G11 0). eexists. split; [reflexivity|]. split; [vm_compute; reflexivity|].
  intros comment w m H. unfold write_with. apply Z.eqb_neq in H. rewrite H. reflexivity.
Qed.

(** The length to wrap at is not kept: a name and a value that are shorter and could be on lines of their own
    make a longer line. *)
Theorem C134_wrap_refuted : exists f w text, w = 40%Z /\ snd (write_with [] w 0 f) = Ret text /\ too_long 60 text /\
  f_coll f = two_blocks G11 /\ (length (u "_length.of_a_line") < 40 /\ length (repeat 120%N 30) < 40)%nat.
Proof.
  exists (two G11 0), 40%Z. eexists. split; [reflexivity|]. split; [vm_compute; reflexivity|]. split.
  { apply has_long_spec. vm_compute. reflexivity. }
  split; [reflexivity|]. split; apply Nat.ltb_lt; vm_compute; reflexivity.
Qed.

Definition wide_ops : list op := [OAdd (u "_a") (VList [VStr (repeat 120%N 50)]); OAdd (u "_b") (VList [VStr (repeat 121%N 50)]); OCreate [u "_a"; u "_b"] (-1)].
Definition wide : ofile :=
  OFile (run_cops [KNew (u "a") (run_ops wide_ops (empty_block true 75 false)) true None; KGrammar G11] (new_coll StdCif Instance false)) (file_max 80) [] [new_settings] (u "#").
(** Nor is the maximum: the values of a row are written on one line, however long it is. *)
Theorem C134_lines_refuted : exists f text, f_max f = 80%Z /\ snd (write_with [] 80 0 f) = Ret text /\ too_long 100 text.
Proof.
  exists wide. eexists. split; [reflexivity|]. split; [vm_compute; reflexivity|]. apply has_long_spec. vm_compute. reflexivity.
Qed.

(** A call that fails leaves the blocks told different things: afterwards one of them may write texts without
    delimiters and the other not. *)
Theorem C134_failed_refuted : exists f f' s1 s2, write_with [] 80 0 f = (f', Raise StarErr) /\ f_blocks f = [new_settings; new_settings] /\ f_blocks f' = [s1; s2] /\
  In None (z_delims s1) /\ ~ In None (z_delims s2).
Proof.
  exists (two G11 72). eexists _, _, _. split; [vm_compute; reflexivity|]. split; [reflexivity|]. split; [reflexivity|].
  split; [vm_compute; tauto|vm_compute; intuition discriminate].
Qed.

Definition with_grammar (g : grammar) (f : ofile) : ofile := OFile (c_set_grammar g (f_coll f)) (f_max f) (f_hints f) (f_blocks f) (f_header f).
(** What is between the elements of lists depends on what was written before: after STAR2 it is a comma also in
    grammar 1.1. *)
Theorem C134_history_refuted : exists f f1 f2, c_gram (f_coll f) = G11 /\
  f1 = fst (write_with [] 80 0 f) /\ f2 = fst (write_with [] 80 0 (with_grammar G11 (fst (write_with [] 80 0 (with_grammar GS2 f))))) /\
  map z_list (f_blocks f1) = [u "  "; u "  "] /\ map z_list (f_blocks f2) = [u ", "; u ", "].
Proof.
  exists (two G11 0). eexists _, _. split; [vm_compute; reflexivity|]. split; [reflexivity|]. split; [reflexivity|]. split; vm_compute; reflexivity.
Qed.

Definition length_theorems := (C134_written, C134_refused, C134_same_text, C134_short_refuted, C134_max_refuted, C134_wrap_refuted, C134_lines_refuted, C134_failed_refuted, C134_history_refuted).
Print Assumptions length_theorems.
