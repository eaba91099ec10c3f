(** C118: expressions of dREL have the trees that the binding of the operators gives them. *)
From Coq Require Import String Ascii List NArith PeanoNat Bool Lia.
From Verif Require Import PyBase LexModel LexSpec DrelModel PhraseModel PhraseSpec PhraseProofs3 PhraseProofs5 PhraseProofs6 PropertiesLex.
Import ListNotations.
Open Scope nat_scope.

(** A tree is found for a row of tokens exactly if the tokens say it. *)
Theorem C118_exact ts c : expression ts = Ret c <-> says 0 c ts.
Proof. split; [apply expression_sound|apply expression_complete]. Qed.
(** A row of tokens says one thing at most. *)
Theorem C118_one_tree c d ts : says 0 c ts -> says 0 d ts -> c = d.
Proof. intros H1 H2. apply C118_exact in H1, H2. rewrite H1 in H2. now injection H2. Qed.
(** The parser ends for every row of tokens. *)
Theorem C118_ends ts : (exists c, expression ts = Ret c) \/ expression ts = Raise SyntaxErr.
Proof. exact (expression_ends ts). Qed.
Theorem C118_fails ts : expression ts = Raise SyntaxErr <-> forall c, ~ says 0 c ts.
Proof.
  split.
  - intros E c H. apply C118_exact in H. rewrite H in E. discriminate.
  - intros H. destruct (C118_ends ts) as [(c & E)|E]; [|exact E]. apply C118_exact in E. destruct (H c E).
Qed.
(** The same from the text: the tokens are those of C99. *)
Theorem C118_text st s c : (exists ts st', lex st s = Ret (ts, st') /\ expression ts = Ret c) <-> exists ts d, reads (s_depth st) s ts d /\ says 0 c ts.
Proof.
  split.
  - intros (ts & st' & L & E). exists ts, (s_depth st'). split; [apply C99_exact; eauto|now apply C118_exact].
  - intros (ts & d & R & Y). apply C99_exact in R as (st' & L & _). exists ts, st'. split; [exact L|now apply C118_exact].
Qed.
(** Comparisons are not chained. *)
Theorem C118_no_chain a b op op2 s s2 ta tb tc : says 4 a ta -> says 4 b tb -> operator 3 4 4 op s -> operator 3 4 4 op2 s2 ->
  expression (ta ++ op ++ tb ++ op2 ++ tc) = Raise SyntaxErr.
Proof. exact (chained a b op op2 s s2 ta tb tc). Qed.
(** An expression followed by the start of another one is refused, unless that
    is a number with a point, a list or a bracket (or a sign, or "not"). *)
Theorem C118_beside c ts k v r : says 0 c ts ->
  In k [ID; ITEM_TAG; SHORTSTRING; LONGSTRING; STRPREFIX; INTEGER; HEXINT; OCTINT; BININT; IMAGINARY; LIT 96; LIT 123] ->
  expression (ts ++ (k, v) :: r) = Raise SyntaxErr.
Proof.
  intros H K. apply (left_over c); [exact H|]. cbn [In] in K. cbn [fst].
  repeat (destruct K as [<-|K]; [reflexivity|]). destruct K.
Qed.

Definition nm (s : string) : cx := XName (u s).
Definition toks_of (s : string) : list (kind * str) := match lex fresh (u s) with Ret (ts, _) => ts | Raise _ => [] end.
(** a number beside a name is an attribute whose name lacks the first digit
    ([p[1][1:]], drel_ast_yacc.py 319-325, is meant for "a.12"): "a 1.5" is read
    as "a" with the attribute ".5" and "a 12.5" has the attribute "2.5" *)
Theorem C118_beside_refuted : exists ts c d s, says 0 c ts /\ d = XAttr c s /\ s = u ".5"
  /\ says 0 (XLit (u "1.5")) [(REAL, u "1.5")] /\ expression (ts ++ [(REAL, u "1.5")]) = Ret d
  /\ exists st, lex fresh (u "a 1.5") = Ret (ts ++ [(REAL, u "1.5")], st).
Proof.
  exists [(ID, u "a")], (nm "a"), (XAttr (nm "a") (u ".5")), (u ".5"). split; [apply C118_exact; vm_compute; reflexivity|].
  split; [reflexivity|]. split; [reflexivity|]. split; [apply C118_exact; vm_compute; reflexivity|]. split; [vm_compute; reflexivity|].
  eexists. vm_compute. reflexivity.
Qed.
(** two numbers beside one another are read as well: "1 2.5" is the number 1
    with the attribute ".5" *)
Theorem C118_two_numbers_refuted : exists a b c, says 0 (XLit (u "1")) a /\ says 0 (XLit (u "2.5")) b /\ expression (a ++ b) = Ret c
  /\ c = XAttr (XLit (u "1")) (u ".5").
Proof.
  exists [(INTEGER, u "1")], [(REAL, u "2.5")], (XAttr (XLit (u "1")) (u ".5")).
  split; [apply C118_exact; vm_compute; reflexivity|]. split; [apply C118_exact; vm_compute; reflexivity|]. split; [vm_compute; reflexivity|reflexivity].
Qed.

(** The hypotheses and both sides are met by texts such as these. *)
Example C118_meets_left : says 0 (XBin (u "-") (XBin (u "-") (nm "a") (nm "b")) (nm "c")) (toks_of "a - b - c").
Proof. apply C118_exact. vm_compute. reflexivity. Qed.
Example C118_meets_power : says 0 (XBin (u "**") (nm "a") (XSign (u "-") (XBin (u "**") (nm "b") (nm "c")))) (toks_of "a ** -b ** c").
Proof. apply C118_exact. vm_compute. reflexivity. Qed.
Example C118_meets_mixed : says 0 (XBin (u "or") (XNot (XBin (u "<") (XBin (u "+") (nm "a") (XBin (u "*") (nm "b") (nm "c"))) (XSign (u "-") (nm "d"))))
    (XBin (u "and") (XBin (u "not in") (nm "e") (XList [nm "f"; nm "g"])) (XSub (XAttr (nm "h") (u "i")) (XGroup [nm "j"]))))
  (toks_of "not a + b * c < -d || e not in [f, g] and h.i[(j)]").
Proof. apply C118_exact. vm_compute. reflexivity. Qed.
Example C118_meets_slices : says 0 (XSlices (XCall (u "f") [nm "x"; XTable [(u "'k'", nm "v")]]) [IRange (Some (nm "a")) None (Some (nm "c")); IExpr (nm "d"); IRange None None None])
  (toks_of "f(x, {'k' : v})[a::c, d, :]").
Proof. apply C118_exact. vm_compute. reflexivity. Qed.
Example C118_meets_fails : forall c, ~ says 0 c (toks_of "a < b < c").
Proof. apply C118_fails. vm_compute. reflexivity. Qed.
Example C118_meets_chain : exists op, operator 3 4 4 op (u "<") /\ says 4 (nm "a") [(ID, u "a")].
Proof.
  exists [(LIT 60, u "<")]. split; [apply O_compare; now left|]. do 4 (apply Y_closer; [apply Nat.ltb_lt; reflexivity|]). apply Y_name.
Qed.

Definition phrase_theorems := (C118_exact, C118_one_tree, C118_ends, C118_fails, C118_text, C118_no_chain, C118_beside, C118_beside_refuted, C118_two_numbers_refuted).
Print Assumptions phrase_theorems.
