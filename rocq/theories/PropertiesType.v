(** C51, C61: type contents and the conversion they direct. *)
From Coq Require Import String Ascii List Arith NArith Bool Lia.
From Verif Require Import PyBase PyFacts TypeModel TypeSpec TypeProofs.
Import ListNotations.
Open Scope string_scope.
Open Scope list_scope.
Open Scope nat_scope.

(** ** C51 *)
(** The parser accepts exactly the texts of the language and gives their
    structure. *)
Theorem C51_parser s t : interpret_structure s = Ret t <-> type_text t s.
Proof. apply interpret_iff. Qed.
(** Everything else is a syntax error. *)
Theorem C51_total s : (exists t, interpret_structure s = Ret t) \/ interpret_structure s = Raise SyntaxErr.
Proof. apply interpret_total. Qed.
(** A text has one structure. *)
Theorem C51_unambiguous s t t' : type_text t s -> type_text t' s -> t = t'.
Proof. intros H H'. apply interpret_iff in H, H'. rewrite H in H'. now injection H'. Qed.
(** Printing and parsing gives the same nesting. *)
Theorem C51_round t : proper t -> interpret_structure (print t) = Ret t.
Proof. apply print_parse. Qed.
(** The container is lost: a list and a matrix cannot be told apart, nor can a list
    and a bare sequence. *)
Theorem C51_container_refuted : exists s s', s <> s' /\ interpret_structure s = interpret_structure s' /\ exists t, interpret_structure s = Ret t.
Proof. exists (u "List(Real,Real)"), (u "Matrix(Real,Real)"). split; [intros E; vm_compute in E; discriminate|]. split; [vm_compute; reflexivity|eexists; vm_compute; reflexivity]. Qed.
Example C51_example : interpret_structure (u "Count, List( Real ,Matrix(Integer),Tag )") = Ret (TList [TName (u "Count"); TList [TName (u "Real"); TList [TName (u "Integer")]; TName (u "Tag")]])
  /\ interpret_structure (u " Real ") = Ret (TName (u "Real")) /\ interpret_structure (u "List (Real)") = Raise SyntaxErr /\ interpret_structure [] = Raise SyntaxErr.
Proof. repeat split; vm_compute; reflexivity. Qed.
Example C51_meets : proper (TList [TName (u "Count"); TList [TName (u "Real")]]).
Proof. cbn [proper]. repeat match goal with |- _ /\ _ => split end; try discriminate; try exact I; apply word_check; (discriminate || (vm_compute; reflexivity)). Qed.

(** ** C61 *)
(** A list of several types: exactly as many values, and each is converted by its
    own type. *)
Theorem C61_list {C} (conv : str -> item -> outcome C) types values r : list_values conv (TList types) false (Many values) = Ret r -> exists l, r = Items l /\ converted conv types values l.
Proof.
  intros E. unfold list_values, simple_list in E. cbn [elements] in E. destruct (Nat.eqb_spec (length values) (length types)) as [L|]; [|discriminate]. destruct (map_o _ _) as [l|] eqn:Em; [|discriminate]. cbn [obind] in E. injection E as <-. exists l. split; [reflexivity|]. apply map_o_ok in Em. split; [now symmetry|].
  revert values l L Em. induction types as [|t types IH]; intros [|v values] l L Em; cbn [length combine] in *; try discriminate.
  - inversion Em; subst. split; [reflexivity|]. intros [|k] n v H; discriminate.
  - inversion Em as [|? y ? ys H1 H2]; subst. destruct (IH values ys) as [IH1 IH2]; [lia|exact H2|]. split; [cbn [length]; lia|]. intros [|k] n w Hn Hw; cbn [nth_error] in *; [|now apply IH2]. injection Hn as ->. injection Hw as ->. cbn [single fst snd] in H1. destruct (conv n w) as [c|] eqn:Ec; [|discriminate]. cbn [obind] in H1. injection H1 as <-. exists c. now split.
Qed.
Theorem C61_list_length {C} (conv : str -> item -> outcome C) types values : length types <> length values -> list_values conv (TList types) false (Many values) = Raise ValueErr.
Proof. intros N. unfold list_values, simple_list. cbn [elements]. destruct (Nat.eqb_spec (length values) (length types)) as [L|]; [now elim N|reflexivity]. Qed.
(** Conversion succeeds exactly if it does for every element. *)
Theorem C61_list_total {C} (conv : str -> item -> outcome C) types values : length types = length values ->
  (forall k n v, nth_error types k = Some (TName n) -> nth_error values k = Some v -> exists c, conv n v = Ret c) -> exists r, list_values conv (TList types) false (Many values) = Ret r.
Proof.
  intros L H. unfold list_values, simple_list. cbn [elements]. rewrite <- L, Nat.eqb_refl. assert (exists l, map_o (fun ti : tree * item => single conv (fst ti) (snd ti)) (combine types values) = Ret l) as (l & ->); [|eexists; reflexivity].
  revert values L H. induction types as [|t types IH]; intros [|v values] L H; cbn [length combine] in *; try discriminate; [now exists []|]. cbn [map_o fst snd]. destruct (IH values) as (l & ->); [lia|intros k n w; apply (H (S k))|]. destruct t as [n|ts]; cbn [single].
  - destruct (H 0 n v eq_refl eq_refl) as (c & ->). cbn [obind]. eexists. reflexivity.
  - cbn [obind]. eexists. reflexivity.
Qed.
(** One type repeated: every element is converted, the number of elements stays. *)
Theorem C61_repeated {C} (conv : str -> item -> outcome C) n values r : list_values conv (TName n) true (Many values) = Ret r -> exists l, r = Items l /\ Forall2 (fun v x => exists c, x = Done c /\ conv n v = Ret c) values l.
Proof.
  intros E. unfold list_values in E. cbn [elements] in E. destruct (map_o _ _) as [l|] eqn:Em; [|discriminate]. cbn [obind] in E. injection E as <-. exists l. split; [reflexivity|]. apply map_o_ok in Em. induction Em as [|v x vs xs H _ IH]; constructor; [|exact IH]. cbn [single] in H. destruct (conv n v) as [c|]; [|discriminate]. cbn [obind] in H. injection H as <-. now exists c.
Qed.
(** Types inside nested lists are ignored: the element is left as it is. *)
Theorem C61_nested_refuted : exists types values, forall C (conv : str -> item -> outcome C), list_values conv (TList types) false (Many values) = Ret (Items (map Same values)) /\ types = [TList [TName (u "Real"); TName (u "Real")]] /\ values = [Many [One (u "1.0"); One (u "x")]].
Proof. exists [TList [TName (u "Real"); TName (u "Real")]], [Many [One (u "1.0"); One (u "x")]]. intros C conv. repeat split. Qed.
Definition digit_conv (n : str) (i : item) : outcome nat := if str_eqb n (u "Count") then match i with One s => Ret (length s) | Many _ => Raise TypeErr end else Ret 0.
Example C61_example : list_values digit_conv (TList [TName (u "Count"); TName (u "Tag")]) false (Many [One (u "12"); One (u "a")]) = Ret (Items [Done 2; Done 0]) /\ list_values digit_conv (TName (u "Count")) true (Many [One (u "1"); One (u "22")]) = Ret (Items [Done 1; Done 2]).
Proof. split; vm_compute; reflexivity. Qed.

Definition type_theorems := (C51_parser, C51_total, C51_unambiguous, C51_round, C51_container_refuted, @C61_list, @C61_list_length, @C61_list_total, @C61_repeated, C61_nested_refuted).
Print Assumptions type_theorems.
