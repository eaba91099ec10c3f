(** Properties of the translation of dREL into python (DrelModel), in the terms of DrelSpec. *)
From Coq Require Import String Ascii List NArith PeanoNat Bool Lia.
From Verif Require Import PyBase DrelModel DrelSpec DrelProofs DrelProofs2 DrelProofs3 DrelProofs4 DrelProofs5 DrelProofs6.
Import ListNotations.
Open Scope string_scope. Open Scope list_scope. Open Scope nat_scope.

(** A translation that starts, told of no loop category. *)
Definition bare : env := Env (Some (u "_a.target")) [] (fun _ _ => Raise KeyErr) (fun _ => []) (fun _ => Raise KeyErr).
Definition fresh : sp := Sp [] [] [] [] [] false None false false.
Definition assigned : sp := set_rhs (Some true) fresh.
Lemma bare_calm st used : s_ids st = [] -> s_packets st = [] -> s_sub st = [] -> s_with st = [] -> calm bare st used.
Proof.
  intros A B C D. split; [rewrite A| |rewrite B|exact C|rewrite D]; [intros k v []..|].
  split; [constructor|]. intros [|i] n v k o X; discriminate X.
Qed.
Lemma reads_of s t : read_expr s = Some t -> Reads s t.
Proof.
  unfold read_expr, Reads, reads. intros H. exists (20 + 20 * length s).
  destruct (rd _ _ _) as [[[|x [|]] [|]]|]; congruence.
Qed.
Definition n (s : string) : cx := XName (u s).
Definition k (s : string) : cx := XLit (u s).
Definition meaning (c : cx) : py := mean bare [] (fun x => x) c.

(** * C77: expressions *)
(** The text made for an expression is, read by python's grammar, the expression; the data
    names that it depends on are noted, and those of the current row are given variables. *)
Theorem C77_expression : forall c e st, sentence e (s_ids st) c = true -> calm e st (names e (s_ids st) c) -> s_rhs st = Some true \/ lists c = false ->
  exists s st2, traverse e (be c) st = Ret (s, st2) /\ Reads s (mean e (s_ids st) (variable (s_with st2)) c)
    /\ grows st st2 (needs e (s_ids st) c).
Proof.
  intros c e st S K R. destruct (all_ok e (s_ids st) c S st eq_refl K R) as (s & st2 & E & W & G & _). exists s, st2.
  split; [exact E|]. split; [|exact W]. apply Good_Reads, (Good_0 c), G, numbered_agree, (g_with _ _ _ W), (c_with _ _ _ K).
Qed.
(** A text is one expression at most. *)
Theorem C77_one_reading : forall s t1 t2, Reads s t1 -> Reads s t2 -> t1 = t2.
Proof. intros s t1 t2 A B. pose proof (reads_det _ _ _ _ A B) as X. injection X as X. exact X. Qed.
(** -(a+b)*2**c > f(x.y[1:2],"t") and not sind(z) in {"k":[1]} *)
Definition sample : cx :=
  XBin (u "and")
    (XBin (u ">") (XBin (u "*") (XSign (u "-") (XGroup [XBin (u "+") (n "a") (n "b")])) (XBin (u "**") (k "2") (n "c")))
                  (XCall (u "f") [XRange (XAttr (n "x") (u "y")) (Some (k "1")) (Some (k "2")) None; XLit (u """t""")]))
    (XNot (XBin (u "in") (XCall (u "sind") [n "z"]) (XTable [(u """k""", XList [k "1"])]))).
Example C77_meets : exists c e st, sentence e (s_ids st) c = true /\ calm e st (names e (s_ids st) c) /\ s_rhs st = Some true /\ c = sample.
Proof. exists sample, bare, assigned. split; [vm_compute; reflexivity|]. split; [apply bare_calm; reflexivity|]. split; reflexivity. Qed.
(** In a method of the category atom, inside a loop over the category sym as s, with the
    dictionary's names those that the category and the object give:
    _cell.a * _atom.x + s.t * atom[s.id].q - v.u, where _atom.x is of the current row. *)
Definition joined (c o : str) : outcome str := Ret (match c with 95%N :: _ => c ++ u "." ++ o | _ => u "_" ++ c ++ u "." ++ o end).
Definition atoms : env := Env (Some (u "_atom.target")) [(u "atom", [u "id"]); (u "sym", [u "id"])] joined (fun _ => u "[]") (fun c => Ret (u "_" ++ c ++ u ".id")).
Definition looping : sp := set_rhs (Some true) (set_ids [(u "_atom", (u "atom", u "looped_cat", false)); (u "s", (u "sym", u "__pi2", true))] fresh).
Definition items : cx :=
  XBin (u "-")
    (XBin (u "+") (XBin (u "*") (XAttr (XTag (u "_cell")) (u "a")) (XAttr (XTag (u "_atom")) (u "x")))
                  (XBin (u "*") (XAttr (n "s") (u "t")) (XAttr (XSub (n "atom") (XAttr (n "s") (u "id"))) (u "q"))))
    (XAttr (n "v") (u "u")).
Lemma atoms_calm : calm atoms looping (names atoms (s_ids looping) items).
Proof.
  split.
  - intros k v [E|[E|[]]]; injection E as <- <-; [right; eexists; split; [reflexivity|discriminate]|left; split; [reflexivity|]]. vm_compute. intros [X|[]]. discriminate X.
  - intros k v [E|[E|[]]]; injection E as <- <-; (split; [reflexivity|]; vm_compute; intros [X|[]]; discriminate X).
  - intros k v [].
  - reflexivity.
  - split; [constructor|]. intros [|i] a b c o X; discriminate X.
Qed.
Example C77_items_meet : exists c e st s st2, sentence e (s_ids st) c = true /\ calm e st (names e (s_ids st) c) /\ s_rhs st = Some true /\ c = items
  /\ traverse e (be c) st = Ret (s, st2)
  /\ s = u "numpy.subtract(drel_runtime.drel_add(drel_runtime.drel_dot(ciffile['_cell.a'],__w0),drel_runtime.drel_dot(ciffile[" ++ dquote (u "_sym.t") ++ u "][__pi2],getattr(ciffile.GetKeyedSemanticPacket(ciffile[" ++ dquote (u "_sym.id") ++ u "][__pi2],'atom'),'_atom.q'))),getattr(v,'u'))"
  /\ map fst (needs e (s_ids st) c) = [u "_cell.a"; u "_atom.x"; u "_sym.t"; u "_atom.id"; u "_sym.id"; u "_atom.q"].
Proof.
  eexists items, atoms, looping, _, _. split; [vm_compute; reflexivity|]. split; [exact atoms_calm|]. split; [reflexivity|]. split; [reflexivity|].
  split; [vm_compute; reflexivity|]. split; vm_compute; reflexivity.
Qed.
(** A packet that was fetched but not used stays in force: after cat[k] the attribute of a
    variable in the same expression is looked up in cat. *)
Theorem C77_packet_refuted : exists e st c x y s st2 t, e_loopable e = [(u "cat", [u "id"])] /\ c = XCall (u "f") [XSub (n "cat") x; y]
  /\ sentence e (s_ids st) x = true /\ sentence e (s_ids st) y = true /\ calm e st (names e (s_ids st) y)
  /\ traverse e (be c) st = Ret (s, st2) /\ Reads s t
  /\ forall var a b, t <> PCall (PName (u "f")) [a; mean e (s_ids st) var y; b].
Proof.
  exists (Env (Some (u "_a.target")) [(u "cat", [u "id"])] joined (fun _ => u "[]") (fun c => Raise KeyErr)), fresh,
    (XCall (u "f") [XSub (n "cat") (k "1"); XAttr (n "v") (u "y")]), (k "1"), (XAttr (n "v") (u "y")).
  eexists _, _, _. split; [reflexivity|]. split; [reflexivity|]. split; [reflexivity|]. split; [reflexivity|]. split.
  { split; [intros k0 v []| |intros k0 v []|reflexivity|].
    - intros k0 v [E|[]]; injection E as <- <-. split; [reflexivity|]. vm_compute. intros [X|[]]. discriminate X.
    - split; [constructor|]. intros [|i] a b c o X; discriminate X. }
  split; [vm_compute; reflexivity|]. split; [apply reads_of; vm_compute; reflexivity|].
  intros var a b X. vm_compute in X. discriminate X.
Qed.
(** The names noted for the items of a packet keep their capitals: the data name may be
    noted twice, in two forms. *)
Theorem C77_capitals_refuted : exists e st c s st2, sentence e (s_ids st) c = true /\ traverse e (be c) st = Ret (s, st2)
  /\ In (u "_cat.Uiso") (s_deps st2) /\ In (u "_cat.uiso") (s_deps st2).
Proof.
  eexists (Env (Some (u "_a.target")) [(u "cat", [u "id"])] joined (fun _ => u "[]") (fun c => Raise KeyErr)), fresh,
    (XBin (u "*") (XAttr (XTag (u "_cat")) (u "Uiso")) (XAttr (XSub (n "cat") (k "1")) (u "Uiso"))), _, _.
  split; [vm_compute; reflexivity|]. split; [vm_compute; reflexivity|]. split; vm_compute; tauto.
Qed.

(** The operators & and | have one precedence in dREL and two in python. *)
Theorem C77_bits_refuted : exists c s t, operands (u "&") (level (XBin (u "|") (n "a") (n "b"))) (level (n "c")) = true
  /\ c = XBin (u "&") (XBin (u "|") (n "a") (n "b")) (n "c")
  /\ traverse bare (be c) fresh = Ret (s, fresh) /\ Reads s t /\ t <> meaning c.
Proof.
  eexists _, (u "a|b&c"), _. split; [reflexivity|]. split; [reflexivity|]. split; [reflexivity|].
  split; [apply reads_of; vm_compute; reflexivity|vm_compute; intros X; discriminate X].
Qed.
(** A list that is not part of an assignment loses its brackets: f([1,2]). *)
Theorem C77_brackets_refuted : exists c s t, sentence bare [] c = true /\ traverse bare (be c) fresh = Ret (s, fresh) /\ Reads s t
  /\ c = XCall (u "f") [XList [k "1"; k "2"]] /\ t = meaning (XCall (u "f") [k "1"; k "2"]) /\ t <> meaning c.
Proof.
  eexists _, (u "f( 1,2,ciffile)"), _. split; [|split; [|split; [|split; [reflexivity|split; [reflexivity|]]]]]; [reflexivity|vm_compute; reflexivity|apply reads_of; vm_compute; reflexivity|vm_compute; intros X; discriminate X].
Qed.
(** A slice with a step but without its first elements is another slice: a[::2] and a[1::2]. *)
Theorem C77_step_refuted : exists c s t, c = XRange (n "a") None None (Some (k "2")) /\ traverse bare (be c) fresh = Ret (s, fresh)
  /\ Reads s t /\ t = meaning (XRange (n "a") (Some (k "2")) None None) /\ t <> meaning c.
Proof. eexists _, (u "a[2:]"), _. split; [reflexivity|]. split; [reflexivity|]. split; [apply reads_of; vm_compute; reflexivity|]. split; [reflexivity|vm_compute; intros X; discriminate X]. Qed.
Theorem C77_step2_refuted : exists c s t, c = XRange (n "a") (Some (k "1")) None (Some (k "2")) /\ traverse bare (be c) fresh = Ret (s, fresh)
  /\ Reads s t /\ t = meaning (XRange (n "a") (Some (k "1")) (Some (k "2")) None) /\ t <> meaning c.
Proof. eexists _, (u "a[1:2]"), _. split; [reflexivity|]. split; [reflexivity|]. split; [apply reads_of; vm_compute; reflexivity|]. split; [reflexivity|vm_compute; intros X; discriminate X]. Qed.
Theorem C77_slice_start_fails : forall p b e st st1 s, traverse e (bx p) st = Ret (s, st1) -> traverse e (be (XRange p None (Some b) None)) st = Raise TypeErr.
Proof. intros p b e st st1 s E. cbn [be bx traverse option_map]. unfold tbind at 1. rewrite E. reflexivity. Qed.
Theorem C77_slice_all_fails : forall p e st st1 s, traverse e (bx p) st = Ret (s, st1) -> traverse e (be (XRange p None None None)) st = Raise IndexErr.
Proof. intros p e st st1 s E. cbn [be bx traverse option_map]. unfold tbind at 1. rewrite E. reflexivity. Qed.
Theorem C77_slice_among_fails : forall p a b c r e st st1 s, traverse e (bx p) st = Ret (s, st1) ->
  traverse e (be (XSlices p (IRange (Some a) b c :: r))) st = Raise SyntaxErr.
Proof. intros p a b c r e st st1 s E. cbn [be bx traverse option_map map bi]. unfold tbind at 1. rewrite E. destruct b, c; reflexivity. Qed.
Theorem C77_group_fails : forall e st, traverse e (be (XGroup [])) st = Raise IndexErr.
Proof. reflexivity. Qed.
(** A slice without its first element cannot be translated: a[:2]. *)
Theorem C77_slice_start_refuted : exists c, c = XRange (n "a") None (Some (k "2")) None /\ traverse bare (be c) fresh = Raise TypeErr.
Proof. eexists. split; reflexivity. Qed.
(** Nor can the slice of everything: a[:]. *)
Theorem C77_slice_all_refuted : exists c, c = XRange (n "a") None None None /\ traverse bare (be c) fresh = Raise IndexErr.
Proof. eexists. split; reflexivity. Qed.
(** Nor can a slice among several subscripts: a[1:2,3:4]. *)
Theorem C77_slice_among_refuted : exists c, c = XSlices (n "a") [IRange (Some (k "1")) (Some (k "2")) None; IRange (Some (k "3")) (Some (k "4")) None] /\ traverse bare (be c) fresh = Raise SyntaxErr.
Proof. eexists. split; reflexivity. Qed.
(** Nor can the empty group, (). *)
Theorem C77_group_refuted : exists c, c = XGroup [] /\ traverse bare (be c) fresh = Raise IndexErr.
Proof. eexists. split; reflexivity. Qed.
Example C77_slices_meet : exists p e st st1 s, traverse e (bx p) st = Ret (s, st1) /\ p = n "a".
Proof. exists (n "a"), bare, fresh, fresh, (u "a"). split; reflexivity. Qed.
(** sort gives what list.sort() gives, which is nothing, not the sorted list. *)
Theorem C77_sort_refuted : exists c s x, c = XCall (u "Sort") [x] /\ x = n "a" /\ traverse bare (be c) fresh = Ret (s, fresh)
  /\ Reads s (PCall (PAttr (meaning x) (u "sort")) []).
Proof. exists (XCall (u "Sort") [n "a"]), (u "( a).sort()"), (n "a"). split; [reflexivity|]. split; [reflexivity|]. split; [reflexivity|]. apply reads_of; vm_compute; reflexivity. Qed.
(** What is made for a function of degrees with two arguments is no python. *)
Local Ltac unread := intros t [m E]; do 75 (destruct m as [|m]; [vm_compute in E; discriminate E|]); vm_compute in E; discriminate E.
Theorem C77_sind_refuted : exists c s, c = XCall (u "sind") [n "a"; n "b"] /\ traverse bare (be c) fresh = Ret (s, fresh) /\ forall t, ~ Reads s t.
Proof. exists (XCall (u "sind") [n "a"; n "b"]), (u "math.sin( math.radians(a,math.radians(b))"). split; [reflexivity|]. split; [reflexivity|]. unread. Qed.
(** Names that are words of python, and numbers that start with zeros, go to python as they are. *)
Theorem C77_words_refuted : exists c s, c = n "class" /\ traverse bare (be c) fresh = Ret (s, fresh) /\ forall t, ~ Reads s t.
Proof. exists (n "class"), (u "class"). split; [reflexivity|]. split; [reflexivity|]. unread. Qed.
Theorem C77_zeros_refuted : exists c s, c = k "007" /\ traverse bare (be c) fresh = Ret (s, fresh) /\ forall t, ~ Reads s t.
Proof. exists (k "007"), (u "007"). split; [reflexivity|]. split; [reflexivity|]. unread. Qed.

Definition drel_theorems := (C77_expression, C77_one_reading, C77_packet_refuted, C77_capitals_refuted, C77_bits_refuted, C77_brackets_refuted, C77_step_refuted, C77_step2_refuted, C77_slice_start_refuted,
  C77_slice_all_refuted, C77_slice_among_refuted, C77_group_refuted, C77_slice_start_fails, C77_slice_all_fails, C77_slice_among_fails, C77_group_fails, C77_sort_refuted, C77_sind_refuted, C77_words_refuted, C77_zeros_refuted).
Print Assumptions drel_theorems.
