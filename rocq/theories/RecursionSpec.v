(** What is asked of the recursion watch. *)
From Coq Require Import String Ascii List NArith Bool.
From Verif Require Import PyBase RecursionModel.
Import ListNotations.

(** The program asks only for keys of [K], whatever its calls return. *)
Fixpoint asks (K : list str) (p : prog) : Prop :=
  match p with
  | Done _ | Fail _ => True
  | Call k _ _ next => In k K /\ forall r, asks K (next r)
  end.
(** A state between or inside calls: inside a call the flag is stored. *)
Definition consistent (st : rstate) : Prop := called st <> [] -> stored st <> None.
(** [e] is a start below the stack [s]. *)
Definition below_stack (s : list str) (e : entry) : Prop := exists k l, e_stack e = s ++ k :: l.
