(** What the validation checks should decide; only the data types of the model
    are used, and equality of values from LoopSpec.v. *)
From Coq Require Import String Ascii List NArith ZArith QArith Bool.
From Verif Require Import PyBase LoopSpec NumberSpec ValidateModel.
Import ListNotations.

Definition unknown (v : value) : Prop := v = VStr [63%N] \/ v = VStr [46%N].

(** The values of an item: a single text, or a column. *)
Inductive held : value -> list value -> Prop :=
| h_one s : held (VStr s) [VStr s]
| h_list l : held (VList l) l
| h_sl l : held (VSL l) l.

(** [bad] lists, in order, the elements for which [P] fails. *)
Inductive offenders {A} (P : A -> Prop) : list A -> list A -> Prop :=
| of_nil : offenders P [] []
| of_bad x l b : ~ P x -> offenders P l b -> offenders P (x :: l) (x :: b)
| of_good x l b : P x -> offenders P l b -> offenders P (x :: l) b.
(** The verdict on a column: pass, or exactly the offending values. *)
Definition verdict (P : value -> Prop) (vs : list value) (r : result) (names : list str) : Prop :=
  exists bad, offenders P vs bad /\ (bad = [] -> r = RTrue) /\ (bad <> [] -> r = RFalse bad names).

(** Ranges of numbers; [None] is an unknown bound. *)
Definition above (lo : option Q) (x : Q) : Prop := match lo with Some q => (q < x)%Q | None => True end.
Definition below (x : Q) (up : option Q) : Prop := match up with Some q => (x < q)%Q | None => True end.
Definition inside (ranges : list (option Q * option Q)) (x : Q) : Prop :=
  exists lo up, In (lo, up) ranges /\
    ((above lo x /\ below x up) \/ exists a b, lo = Some a /\ up = Some b /\ (a == x)%Q /\ (b == x)%Q).
(** The bound a dictionary value stands for: a point, or a plain numeral. *)
Inductive bound_of : value -> option Q -> Prop :=
| b_none : bound_of (VStr [46%N]) None
| b_num n q (v : value) : proper n -> n_su n = None -> (forall l g x, n_exp n = Some (l, g, x) -> In l [101; 69]%N) ->
    (q == number n)%Q -> v = VStr (text n) \/ v = VNum (text n) -> bound_of v (Some q).
(** Unknown, or a text beginning with a number in one of the ranges. *)
Definition in_range (ranges : list (option Q * option Q)) (v : value) : Prop :=
  unknown v \/ exists s n, v = VStr s /\ longest n s /\ inside ranges (number n).

(** Listed, unknown or inapplicable. *)
Definition listed (enum : list value) (v : value) : Prop := unknown v \/ exists w, In w enum /\ same_value v w.

(** The [i]-th entry of each key column. *)
Definition agree (cols : list (list str)) (i j : nat) : Prop :=
  forall c, In c cols -> nth_error c i = nth_error c j.
(** No two rows agree on all key items. *)
Definition unique_rows (n : nat) (cols : list (list str)) : Prop :=
  forall i j, (i < n)%nat -> (j < n)%nat -> agree cols i j -> i = j.

(** The calls a run makes, with the key each is reported under. *)
Definition calls (ks : checks) (t : table) (loops : list (list str)) : list (option str * str * outcome result) :=
  flat_map (fun kv => map (fun f => (Some (fst kv), fst f, snd f (fst kv) (snd kv))) (k_item ks)
                   ++ map (fun f => (Some (fst kv), fst f, snd f (fst kv) (snd kv) t)) (k_global ks)) t
  ++ flat_map (fun cols => map (fun f => (hd_error cols, fst f, snd f cols)) (k_loop ks)) loops
  ++ map (fun f => (Some (u "whole_block"), fst f, snd f t)) (k_block ks).
Definition is_false (r : result) : Prop := exists v n, r = RFalse v n.
(** The failures reported under a key, in the order of the calls. *)
Definition failures (k : str) (l : list (option str * str * outcome result)) : list (str * result) :=
  flat_map (fun c => match c with
                     | (Some k', n, Ret (RFalse v b)) => if str_eqb k k' then [(n, RFalse v b)] else []
                     | _ => []
                     end) l.
