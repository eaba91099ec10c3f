(** C107, C108: the expressions of the types of a DDL2 dictionary. *)
From Coq Require Import String Ascii List NArith ZArith PeanoNat Bool Lia.
From Verif Require Import PyBase PyFacts StarBlockModel RegexModel RegexSpec ValidateModel ValidateSpec ValidateProofs ValidateProofs4 PropertiesValidate TypeInfoModel TypeInfoSpec TypeInfoProofs TypeInfoProofs2 TypeInfoProofs3 TypeInfoProofs4.
Import ListNotations.
Open Scope nat_scope.

(** ** C107: what regex_fiddle changes *)
(** Exactly the last \{ and the last \n that have a bracket before and after them in
    the first line; and whatever a text becomes, it can become nothing else. *)
Theorem C107_fiddle : forall s, exists t, mended (u "\{") (u "\\{") s t /\ mended (u "\n") (u "\n\r") t (regex_fiddle s).
Proof. intros s. exists (fiddle_one brace_mark (u "\\{") s). split; apply fiddle_mends. Qed.
Theorem C107_exact : forall mark new s a b, mended mark new s a -> mended mark new s b -> a = b.
Proof. exact mended_unique. Qed.
(** Of an expression in one line nothing is lost. *)
Theorem C107_one_line : forall mark new s t, ~ In 10%N s -> mended mark new s t -> t = s \/ exists p q, s = p ++ mark ++ q /\ t = p ++ new ++ q.
Proof.
  intros mark new s t N [(p & q & [(rest & E & R) _ _ _ _] & _ & ->)|[_ ->]]; [|now left]. right. exists p, q. split; [|reflexivity].
  destruct R as [->|(r & ->)]; [now rewrite app_nil_r in E|]. elim N. rewrite E, !in_app_iff. right. right. right. now left.
Qed.
(** The type "text" of the mmCIF dictionary. *)
Definition text_set : list sitem :=
  map SChr (u "[ ") ++ [SEsc 110%N; SEsc 116%N] ++ map SChr (u "()_,.;:""&<>/") ++ [SEsc 123%N] ++ map SChr (u "}'`~!@#$%?+=*") ++
  [SRange 65 90; SRange 97 122; SRange 48 57]%N ++ map SChr (u "|^").
Definition text_type : str := u "[][ \n\t()_,.;:""&<>/\{}'`~!@#$%?+=*A-Za-z0-9|^-]*".
Example C107_meets : regex_fiddle (text_type ++ u "$") = u "[][ \n\r\t()_,.;:""&<>/\\{}'`~!@#$%?+=*A-Za-z0-9|^-]*$" /\ ~ In 10%N (text_type ++ u "$").
Proof. split; [vm_compute; reflexivity|]. vm_compute. intuition discriminate. Qed.
(** Of two sets that have \n only the second one is mended. *)
Theorem C107_every_refuted : exists s a b r, s = u "[a\n]*" ++ a ++ u "[b\n]*" /\ re_compile (regex_fiddle (s ++ u "$")) = Ret r /\
  re_match r (a ++ b) = Some (a ++ b, []) /\ In 13%N b /\ re_match r (b ++ a) = None.
Proof.
  exists (u "[a\n]*x[b\n]*"), (u "x"), [13%N]. destruct (re_compile (regex_fiddle (u "[a\n]*x[b\n]*" ++ u "$"))) as [r|e] eqn:E; vm_compute in E; [|discriminate E].
  injection E as <-. eexists. split; [reflexivity|]. split; [reflexivity|]. split; [vm_compute; reflexivity|]. split; [now left|]. vm_compute. reflexivity.
Qed.
(** Nor is a \n directly after the opening bracket. *)
Theorem C107_first_refuted : exists b l h, set_ok b l h /\ In (SEsc 110%N) l /\ regex_fiddle (set_text b l h ++ u "*$") = set_text b l h ++ u "*$".
Proof.
  exists false, [SEsc 110%N; SEsc 116%N], false. split; [|split; [now left|vm_compute; reflexivity]]. split.
  - repeat constructor; cbn [sitem_ok]; [exists 10%N; left|exists 9%N; right; left]; now split.
  - right. exists (SEsc 110%N), [SEsc 116%N]. split; [reflexivity|]. intros c [E|(hi & E)]; discriminate E.
Qed.
(** A \n between two sets is changed as well: a value that the expression of the
    dictionary matches is then not matched. *)
Theorem C107_outside_refuted : exists s v r r', re_compile (s ++ u "$") = Ret r /\ re_match r v = Some (v, []) /\
  re_compile (regex_fiddle (s ++ u "$")) = Ret r' /\ re_match r' v = None.
Proof.
  exists (u "[a-z]\n[a-z]"), [97; 10; 98]%N.
  destruct (re_compile (u "[a-z]\n[a-z]" ++ u "$")) as [r|e] eqn:E; vm_compute in E; [|discriminate E]. injection E as <-.
  destruct (re_compile (regex_fiddle (u "[a-z]\n[a-z]" ++ u "$"))) as [r'|e'] eqn:E'; vm_compute in E'; [|discriminate E']. injection E' as <-.
  eexists. eexists. split; [reflexivity|]. split; [vm_compute; reflexivity|]. split; [reflexivity|]. vm_compute. reflexivity.
Qed.
(** Of an expression in two lines the second one is dropped when the first one is
    mended, with the $ in the end. *)
Theorem C107_lines_refuted : exists s s', regex_fiddle (s ++ 10%N :: s' ++ u "$") = regex_fiddle s /\ s' <> [].
Proof. exists (u "[a\n]"), (u "end"). split; [vm_compute; reflexivity|discriminate]. Qed.

(** ** C108: the table of types *)
(** Every type of the dictionary is entered with its mended expression and its
    primitive type. *)
Theorem C108_types : forall b ks ps cs rs, NoDup ks -> length ks = length cs -> length ks = length ps ->
  get_item (u "_item_type_list.code") b = Ret (VList (map VStr ks)) ->
  get_item (u "_item_type_list.primitive_code") b = Ret (VList ps) ->
  get_item (u "_item_type_list.construct") b = Ret (VList (map VStr cs)) ->
  Forall2 (fun c r => re_compile (regex_fiddle (c ++ u "$")) = Ret r) cs rs ->
  add_type_info b = Ret (combine ks rs, combine ks ps).
Proof. exact type_table. Qed.
(** The expression of a set that is repeated: what the set says, with a carriage
    return if it has \n and a backslash if it has \{. *)
Theorem C108_set : forall b l h, set_ok b l h ->
  exists p, re_compile (regex_fiddle (set_text b l h ++ u "*$")) = Ret (RSeq (RStar (RChr p)) REol) /\
    forall x, p x = true <-> set_has b l h x \/ (marked b l 110%N /\ x = 13%N) \/ (marked b l 123%N /\ x = 92%N).
Proof. exact set_mended. Qed.
(** From the dictionary to the check of a value: a column of such a type passes
    exactly if every value is unknown or has only characters of the set. *)
Theorem C108_accepts : forall b ks ps cs rs i k br l h d name v def vs, NoDup ks -> length ks = length cs -> length ks = length ps ->
  get_item (u "_item_type_list.code") b = Ret (VList (map VStr ks)) ->
  get_item (u "_item_type_list.primitive_code") b = Ret (VList ps) ->
  get_item (u "_item_type_list.construct") b = Ret (VList (map VStr cs)) ->
  Forall2 (fun c r => re_compile (regex_fiddle (c ++ u "$")) = Ret r) cs rs ->
  nth_error ks i = Some k -> nth_error cs i = Some (set_text br l h ++ u "*") -> set_ok br l h ->
  (exists prims, add_type_info b = Ret (d_types d, prims)) ->
  dic_get d name = Ret def -> tget (d_type_spec d) def = Some (VStr k) -> held v vs -> (forall a, In a vs -> is_text a = true) ->
  exists r, validate_item_type d name v = Ret r /\
    verdict (fun a => unknown a \/ exists s, a = VStr s /\ Forall (fun c => set_has br l h c \/ (marked br l 110%N /\ c = 13%N) \/ (marked br l 123%N /\ c = 92%N)) s) vs r [].
Proof.
  intros b ks ps cs rs i k br l h d name v def vs N Lc Lp Gk Gp Gc F Ek Es O (prims & A) Hd Ht Hv Hx.
  rewrite (type_table b ks ps cs rs N Lc Lp Gk Gp Gc F) in A. injection A as A _.
  assert (exists r, nth_error rs i = Some r /\ re_compile (regex_fiddle ((set_text br l h ++ u "*") ++ u "$")) = Ret r) as (r & Er & Cr).
  { clear -F Es. revert i Es. induction F as [|c r cs rs E F IH]; intros [|i] Es; try discriminate Es; [injection Es as ->; now exists r|]. exact (IH i Es). }
  rewrite <- app_assoc in Cr. destruct (set_mended br l h O) as (p & Ep & P). change (u "*" ++ u "$") with (u "*$") in Cr. rewrite Ep in Cr. injection Cr as <-.
  pose proof (dget_combine ks rs i k _ N Ek Er) as G. rewrite A in G.
  destruct (C53_class_type_exact_partial d name v def k p vs Hd Ht G Hv Hx) as (r' & E & (bad & Of & V)). exists r'. split; [exact E|]. exists bad. split; [|exact V]. clear -Of P.
  assert (forall s, Forall (fun c => p c = true) s <-> Forall (fun c => set_has br l h c \/ (marked br l 110%N /\ c = 13%N) \/ (marked br l 123%N /\ c = 92%N)) s) as Q.
  { intros s. rewrite !Forall_forall. split; intros H c I; apply P, H, I. }
  induction Of as [|x l' b' Nx _ IH|x l' b' Y _ IH]; [constructor| |].
  - apply of_bad; [|exact IH]. intros [U|(s & -> & Fs)]; apply Nx; [now left|]. right. exists s. split; [reflexivity|]. now apply Q.
  - apply of_good; [|exact IH]. destruct Y as [U|(s & -> & Fs)]; [now left|]. right. exists s. split; [reflexivity|]. now apply Q.
Qed.
(** Compiling always ends. *)
Theorem C108_ends : forall s, re_compile s <> Raise OutOfFuel.
Proof. exact compile_ends. Qed.
(** One type that is not in a loop: its text is taken apart into characters, and an
    expression that begins with a set can not be compiled. *)
Theorem C108_single_fails : forall b c k s v, get_item (u "_item_type_list.code") b = Ret (VStr (c :: k)) ->
  get_item (u "_item_type_list.primitive_code") b = Ret v -> get_item (u "_item_type_list.construct") b = Ret (VStr (91%N :: s)) -> add_type_info b = Raise ValueErr.
Proof. exact single_type. Qed.

Example text_set_ok : set_text true text_set true ++ u "*" = text_type /\ set_ok true text_set true /\ marked true text_set 110%N /\ marked true text_set 123%N.
Proof.
  split; [vm_compute; reflexivity|]. split; [|split; [cbn; tauto|cbn; tauto]]. split; [|now left].
  assert (forall s, Forall plain s -> Forall sitem_ok (map SChr s)) as M by (intros s H; apply Forall_map; exact H).
  assert (forall s, forallb (fun c => negb (existsb (N.eqb c) [92; 93; 45; 10]%N)) s = true -> Forall plain s) as D.
  { intros s H. rewrite forallb_forall in H. apply Forall_forall. intros c I J. specialize (H c I). apply negb_true_iff in H. rewrite <- not_true_iff_false in H. apply H. apply existsb_exists. exists c. split; [exact J|apply N.eqb_refl]. }
  assert (forall lo hi, Forall plain [lo; hi] -> (lo <= hi)%N -> sitem_ok (SRange lo hi)) as R by (intros lo hi H L; inversion H as [|? ? H1 H2]; inversion H2; subst; repeat split; assumption).
  unfold text_set. apply Forall_app; split; [apply M, D; reflexivity|]. apply Forall_app; split; [|apply Forall_app; split; [apply M, D; reflexivity|]].
  - constructor; [exists 10%N; left; now split|]. constructor; [exists 9%N; right; left; now split|constructor].
  - apply Forall_app; split; [constructor; [|constructor]; exists 123%N; right; right; right; split; [unfold sign; lia|reflexivity]|].
    apply Forall_app; split; [apply M, D; reflexivity|]. apply Forall_app; split; [|apply M, D; reflexivity].
    repeat (constructor; [apply R; [apply D; reflexivity|lia]|]). constructor.
Qed.
Definition types_block (codes prims constructs : list str) : block :=
  run_ops [OAdd (u "_item_type_list.code") (VList (map VStr codes)); OAdd (u "_item_type_list.primitive_code") (VList (map VStr prims));
           OAdd (u "_item_type_list.construct") (VList (map VStr constructs)); OCreate [u "_item_type_list.code"; u "_item_type_list.primitive_code"; u "_item_type_list.construct"] (-1)%Z] (empty_block true 0 false).
Definition two_types : block := types_block [u "text"; u "int"] [u "char"; u "numb"] [text_type; u "-?[0-9]+"].
Lemma two_types_view : get_item (u "_item_type_list.code") two_types = Ret (VList (map VStr [u "text"; u "int"])) /\
  get_item (u "_item_type_list.primitive_code") two_types = Ret (VList (map VStr [u "char"; u "numb"])) /\
  get_item (u "_item_type_list.construct") two_types = Ret (VList (map VStr [text_type; u "-?[0-9]+"])).
Proof. vm_compute. repeat split. Qed.
Lemma two_types_compile : exists r r', re_compile (regex_fiddle (text_type ++ u "$")) = Ret r /\ re_compile (regex_fiddle (u "-?[0-9]+" ++ u "$")) = Ret r'.
Proof.
  destruct text_set_ok as (E & O & _). destruct (C108_set true text_set true O) as (p & Ep & _). rewrite <- E. rewrite <- app_assoc. change (u "*" ++ u "$") with (u "*$"). rewrite Ep. do 2 eexists. split; [reflexivity|]. vm_compute. reflexivity.
Qed.
Example C108_meets : exists d, (exists prims, add_type_info two_types = Ret (d_types d, prims)) /\ forall s,
  exists r, validate_item_type d (u "_a") (VStr s) = Ret r /\ verdict (fun a => unknown a \/ exists s, a = VStr s /\
    Forall (fun c => set_has true text_set true c \/ (marked true text_set 110%N /\ c = 13%N) \/ (marked true text_set 123%N /\ c = 92%N)) s) [VStr s] r [].
Proof.
  destruct two_types_view as (Gk & Gp & Gc), two_types_compile as (r & r' & C1 & C2). destruct text_set_ok as (E & O & _).
  assert (NoDup [u "text"; u "int"]) as N by (repeat constructor; cbn; intuition discriminate).
  assert (Forall2 (fun c r => re_compile (regex_fiddle (c ++ u "$")) = Ret r) [text_type; u "-?[0-9]+"] [r; r']) as F by (repeat constructor; assumption).
  exists (PropertiesValidate.ddl2 (combine [u "text"; u "int"] [r; r']) [(u "_a", [(u "_item_type.code", T "text")])]).
  assert (add_type_info two_types = Ret (combine [u "text"; u "int"] [r; r'], combine [u "text"; u "int"] (map VStr [u "char"; u "numb"]))) as A by (now apply (C108_types two_types [u "text"; u "int"] (map VStr [u "char"; u "numb"]) [text_type; u "-?[0-9]+"] [r; r'])).
  split; [eexists; exact A|]. intros s.
  eapply (C108_accepts two_types [u "text"; u "int"] (map VStr [u "char"; u "numb"]) [text_type; u "-?[0-9]+"] [r; r'] 0 (u "text") true text_set true); try eassumption; try reflexivity.
  - eexists. exact A.
  - constructor.
  - intros a [<-|[]]. reflexivity.
Qed.
Definition one_type : block := run_ops [OAdd (u "_item_type_list.code") (VStr (u "code")); OAdd (u "_item_type_list.primitive_code") (VStr (u "char")); OAdd (u "_item_type_list.construct") (VStr (u "[a-z]*"))] (empty_block true 0 false).
(** A dictionary with one type can not be used at all. *)
Theorem C108_single_refuted : exists b k c, get_item (u "_item_type_list.code") b = Ret (VStr k) /\ get_item (u "_item_type_list.construct") b = Ret (VStr c) /\ add_type_info b = Raise ValueErr /\
  exists p, re_compile (regex_fiddle (c ++ u "$")) = Ret p.
Proof. exists one_type, (u "code"), (u "[a-z]*"). split; [vm_compute; reflexivity|]. split; [vm_compute; reflexivity|]. split; [apply (C108_single_fails one_type 99%N (u "ode") (u "a-z]*") (VStr (u "char"))); vm_compute; reflexivity|]. vm_compute. eexists. reflexivity. Qed.
(** A range that ends in \{ shrinks: the letters are no longer matched. *)
Theorem C108_range_refuted : exists s v r r', re_compile (s ++ u "$") = Ret r /\ re_match r v = Some (v, []) /\ re_compile (regex_fiddle (s ++ u "$")) = Ret r' /\ re_match r' v = None.
Proof.
  exists (u "[ -\{]+"), (u "abc"). vm_compute. do 2 eexists. repeat split.
Qed.

Definition typeinfo_theorems := (C107_fiddle, C107_exact, C107_one_line, C107_every_refuted, C107_first_refuted, C107_outside_refuted, C107_lines_refuted,
  C108_types, C108_set, C108_accepts, C108_ends, C108_single_fails, C108_single_refuted, C108_range_refuted).
Print Assumptions typeinfo_theorems.
