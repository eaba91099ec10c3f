(** Properties C18-C21: the line folding and line prefix protocols. *)
From Coq Require Import String Ascii List NArith ZArith Bool Lia.
From Verif Require Import PyBase RegexModel FoldModel FoldSpec FoldProofs FoldProofs2 FoldProofs3.
Import ListNotations.

(** Long texts for the examples. *)
Definition words (n : nat) : str := concat (repeat (u "lorem ipsum ") n).
Definition sample : str := u "first" ++ [NL] ++ words 20 ++ [BS; NL; NL; SC] ++ u "tail\".

(** C18.  Folding loses nothing: for all widths, a text with an over-long line and
    no line ending in backslash-blank comes back from unfolding.  The number of
    rounds given to the while loop is any number at least the text length. *)
Theorem C18_lossless : forall minw maxw fuel s,
  (0 < minw < maxw)%Z -> (length s <= fuel)%nat ->
  long_line (Z.to_nat maxw) s -> ~ dangling s ->
  exists o, apply_line_folding fuel minw maxw s = Ret o /\ remove_line_folding o = s.
Proof. exact fold_lossless. Qed.

(** Short or long, a text that is not itself written in the protocol survives. *)
Theorem C18_lossless_any_length : forall minw maxw fuel s,
  (0 < minw < maxw)%Z -> (length s <= fuel)%nat ->
  ~ dangling s -> (forall bl rest, ~ fold_header bl rest s) ->
  exists o, apply_line_folding fuel minw maxw s = Ret o /\ remove_line_folding o = s.
Proof. exact fold_always. Qed.

(** Texts with only short lines are not touched (unless they begin with the odd
    text "[", space, vertical tab that the expression at line 2829 asks for). *)
Theorem C18_short_unchanged : forall minw maxw fuel s,
  (0 < maxw)%Z -> ~ long_line (Z.to_nat maxw) s -> (forall t, s <> 91%N :: 32%N :: 11%N :: t) ->
  apply_line_folding fuel minw maxw s = Ret s.
Proof. exact fold_short. Qed.

Example C18_ex : exists o, apply_line_folding 300 60 80 sample = Ret o /\ o <> sample
  /\ remove_line_folding o = sample.
Proof. eexists. split; [vm_compute; reflexivity|]. split; [vm_compute; discriminate|vm_compute; reflexivity]. Qed.
Example C18_ex_long : long_line 80 sample.
Proof.
  exists (words 20 ++ [BS]). split; [split|].
  - vm_compute. intros H. repeat (destruct H as [H|H]; [discriminate|]). exact H.
  - exists (u "first" ++ [NL]), ([NL; NL; SC] ++ u "tail\"). split; [reflexivity|].
    split; [right; now exists (u "first")|right; eexists; reflexivity].
  - vm_compute. lia.
Qed.
Lemma nondangling_by (s : str) :
  forallb (fun i => match skipn i s with
                    | c :: d :: _ => negb ((c =? 92)%N && existsb (N.eqb d) [32; 9; 11; 12]%N)
                    | _ => true end) (seq 0 (length s)) = true -> ~ dangling s.
Proof.
  intros H (a & b & bl & z & -> & Hb & _). rewrite forallb_forall in H.
  specialize (H (length a)). rewrite skipn_app, skipn_all, Nat.sub_diag in H. cbn [skipn app] in H.
  assert (In (length a) (seq 0 (length (a ++ BS :: b :: bl ++ z)))) as Hi
    by (apply in_seq; rewrite app_length; cbn; lia).
  specialize (H Hi). apply Forall_cons_iff in Hb. destruct Hb as [Hb _].
  destruct Hb as [-> | [-> | [-> | ->]]]; discriminate.
Qed.
Example C18_ex_clean : ~ dangling sample.
Proof. apply nondangling_by. vm_compute. reflexivity. Qed.

(** Outside its conditions the round trip fails: a line ending in backslash-blank
    is joined to the next one, and a short text that begins with a backslash line
    is left alone by folding but altered by unfolding (the guard at line 2829 never
    fires because its python literal is not raw). *)
Theorem C18_dangling_refuted : exists s o, long_line 80 s /\
  apply_line_folding 300 60 80 s = Ret o /\ remove_line_folding o <> s.
Proof.
  exists (words 20 ++ [BS; 32%N; NL] ++ u "x"). eexists. split; [|split; [vm_compute; reflexivity|vm_compute; discriminate]].
  exists (words 20 ++ [BS; 32%N]). split; [split|].
  - vm_compute. intros H. repeat (destruct H as [H|H]; [discriminate|]). exact H.
  - exists [], (NL :: u "x"). split; [reflexivity|]. split; [now left|right; eexists; reflexivity].
  - vm_compute. lia.
Qed.
Theorem C18_header_refuted : exists s, apply_line_folding 300 60 80 s = Ret s /\ remove_line_folding s <> s.
Proof. exists ([BS; NL] ++ u "x"). split; [vm_compute; reflexivity|vm_compute; discriminate]. Qed.

(** C19.  Folding always ends and bounds the length of every line it produces. *)
Theorem C19_total_bounded : forall minw maxw fuel s,
  (0 < minw < maxw)%Z -> (length s <= fuel)%nat ->
  exists o, apply_line_folding fuel minw maxw s = Ret o /\
            no_longer_than (Z.to_nat (Z.max (minw + maxw - 1) (maxw + 1))) o.
Proof. exact fold_total_bound. Qed.

(** The default widths 60/80: at most 139 characters; and that many do occur, so
    the documented target of 80 is not kept. *)
Theorem C19_default : forall fuel s, (length s <= fuel)%nat ->
  exists o, apply_line_folding fuel 60 80 s = Ret o /\ no_longer_than 139 o.
Proof. intros fuel s H. exact (fold_total_bound 60 80 fuel s ltac:(lia) H). Qed.
Theorem C19_target_refuted : exists s o, apply_line_folding 300 60 80 s = Ret o /\ ~ no_longer_than 138 o.
Proof.
  exists (repeat 97%N 138 ++ 32%N :: repeat 97%N 30). eexists. split; [vm_compute; reflexivity|].
  intros H. specialize (H [BS; NL] (repeat 97%N 138 ++ [BS]) (NL :: 32%N :: repeat 97%N 30) eq_refl).
  assert (length (repeat 97%N 138 ++ [BS]) <= 138)%nat as H1.
  { apply H. vm_compute. intros Hi. repeat (destruct Hi as [Hi|Hi]; [discriminate|]). exact Hi. }
  vm_compute in H1. lia.
Qed.
Example C19_ex : exists o, apply_line_folding 300 5 12 sample = Ret o /\ length (split_nl o) = 46%nat.
Proof. eexists. split; vm_compute; reflexivity. Qed.

(** Where an over-long line is cut: before the first blank at or after the smaller
    width, if it is near enough (the blank goes to the next line). *)
Theorem C19_cut_at_blank : forall fuel maxw pre a c b,
  Forall (fun x => ~ blank x) a -> blank c -> (Z.of_nat (length a) < maxw - 1)%Z ->
  (maxw < Z.of_nat (length (pre ++ a ++ c :: b)))%Z ->
  fold_loop (Datatypes.S fuel) (Z.of_nat (length pre)) maxw (pre ++ a ++ c :: b)
  = obind (fold_loop fuel (Z.of_nat (length pre)) maxw (c :: b)) (fun r =>
    Ret (pre ++ a ++ [BS; NL] ++ fst r, snd r)).
Proof.
  intros fuel maxw pre a c b Ha Hc Hk Hl. cbn [fold_loop].
  destruct (Z.gtb_spec (Z.of_nat (length (pre ++ a ++ c :: b))) maxw); [|lia].
  rewrite from_app, (search_first _ _ _ Ha Hc).
  destruct (Z.ltb_spec (Z.of_nat (length a)) (maxw - 1)); [|lia].
  rewrite <- Nat2Z.inj_add, <- app_length, app_assoc, from_app, upto_app.
  destruct (fold_loop fuel _ _ (c :: b)); cbn [obind]; rewrite <- ?app_assoc; reflexivity.
Qed.
(** With no blank after the smaller width it is cut one short of the larger width. *)
Theorem C19_cut_at_width : forall fuel minw pre a b,
  (0 <= minw)%Z -> Forall (fun x => ~ blank x) (from minw (pre ++ a :: b)) -> b <> [] ->
  fold_loop (Datatypes.S fuel) minw (Z.of_nat (length pre) + 1) (pre ++ a :: b)
  = obind (fold_loop fuel minw (Z.of_nat (length pre) + 1) (a :: b)) (fun r =>
    Ret (pre ++ [BS; NL] ++ fst r, snd r)).
Proof.
  intros fuel minw pre a b H0 Ha Hb. cbn [fold_loop].
  assert (0 < length b)%nat by (destruct b; [contradiction|cbn; lia]).
  destruct (Z.gtb_spec (Z.of_nat (length (pre ++ a :: b))) (Z.of_nat (length pre) + 1)) as [_|L].
  2: { rewrite app_length in L. cbn [length] in L. lia. }
  rewrite (search_none _ Ha), Z.add_simpl_r, from_app, upto_app. reflexivity.
Qed.
Example C19_cut_ex : forall fuel, fold_loop (Datatypes.S fuel) 4 9 (u "abcd" ++ u "efg" ++ 32%N :: u "hij")
  = obind (fold_loop fuel 4 9 (32%N :: u "hij")) (fun r => Ret (u "abcd" ++ u "efg" ++ [BS; NL] ++ fst r, snd r)).
Proof.
  intros fuel. apply (C19_cut_at_blank fuel 9 (u "abcd") (u "efg") 32%N (u "hij")); [|left; reflexivity|vm_compute; reflexivity..].
  repeat constructor; unfold blank; cbn; intuition discriminate.
Qed.

(** C20.  A prefix comes off again. *)
Theorem C20_lossless : forall p s, good_prefix p -> (forall bl rest, ~ fold_header bl rest s) ->
  exists o, apply_line_prefix s p = Ret o /\ remove_line_prefix o = s.
Proof. exact prefix_plain. Qed.
(** A text with a folding header keeps it, apart from blanks after the header's backslash. *)
Theorem C20_lossless_folded : forall p bl rest, good_prefix p -> Forall blank bl ->
  exists o, apply_line_prefix (BS :: bl ++ NL :: rest) p = Ret o /\ remove_line_prefix o = BS :: NL :: rest.
Proof. exact prefix_folded. Qed.

Example C20_ex_good : good_prefix (u "CIF:> ").
Proof. exact (chosen_prefix_good 0). Qed.
Example C20_ex : exists o, apply_line_prefix sample (u "CIF:> ") = Ret o /\ o <> sample /\ remove_line_prefix o = sample.
Proof. eexists. split; [vm_compute; reflexivity|]. split; [vm_compute; discriminate|vm_compute; reflexivity]. Qed.
Example C20_ex_folded : exists o, apply_line_prefix ([BS; NL] ++ sample) (u "CIF:> ") = Ret o
  /\ remove_line_prefix o = [BS; NL] ++ sample.
Proof. eexists. split; vm_compute; reflexivity. Qed.

(** A one-character prefix is accepted when writing but not recognised when reading. *)
Theorem C20_one_char_refuted : exists p s o, p <> [] /\ apply_line_prefix s p = Ret o /\ remove_line_prefix o <> s.
Proof. exists (u ">"), (u "a"). eexists. split; [discriminate|]. split; [vm_compute; reflexivity|vm_compute; discriminate]. Qed.

(** C21.  Prefixed texts hold no newline-semicolon; the prefix search ends with
    the shortest unused candidate, which is a prefix the protocol can carry. *)
Theorem C21_no_terminator : forall p s o, good_prefix p -> apply_line_prefix s p = Ret o -> no_terminator o.
Proof. exact prefix_no_terminator. Qed.
Theorem C21_search_ends : forall fuel p s, (length s < length p + fuel)%nat ->
  exists k, find_prefix fuel p s = Ret (p ++ repeat 58%N k) /\ ~ occurs (p ++ repeat 58%N k) s
            /\ (forall j, (j < k)%nat -> occurs (p ++ repeat 58%N j) s).
Proof. exact find_prefix_total. Qed.
Theorem C21_found_good : forall k, good_prefix ((u "CIF:" ++ repeat 58%N k) ++ u "> ").
Proof. exact chosen_prefix_good. Qed.
Example C21_ex : find_prefix 40 (u "CIF:") (u "text CIF:: and CIF: again") = Ret (u "CIF:::").
Proof. vm_compute. reflexivity. Qed.
Example C21_ex_terminator : ~ no_terminator sample /\
  exists o, apply_line_prefix sample (u "CIF:> ") = Ret o /\ no_terminator o.
Proof.
  split.
  - intros H. apply (H (u "first" ++ [NL] ++ words 20 ++ [BS; NL]) (u "tail\")). vm_compute. reflexivity.
  - destruct (apply_line_prefix sample (u "CIF:> ")) as [o|] eqn:E.
    + exists o. split; [reflexivity|]. exact (C21_no_terminator _ _ _ (C21_found_good 0) E).
    + vm_compute in E. discriminate.
Qed.

(** One command for all the theorems above: what it lists is the union of what they
    depend on. *)
Definition fold_theorems :=
  (C18_lossless,
   C18_lossless_any_length,
   C18_short_unchanged,
   C18_dangling_refuted,
   C18_header_refuted,
   C19_total_bounded,
   C19_default,
   C19_target_refuted,
   C19_cut_at_blank,
   C19_cut_at_width,
   C20_lossless,
   C20_lossless_folded,
   C20_one_char_refuted,
   C21_no_terminator,
   C21_search_ends,
   C21_found_good).
Print Assumptions fold_theorems.
