(** What a method of a looped category should do: the rows that the translated text is
    to be run on, and its results. *)
From Coq Require Import String Ascii List NArith Bool.
From Verif Require Import PyBase StarBlockModel HeaderModel.
Import ListNotations.
Open Scope nat_scope.

(** A name of the category with its column; a name that need not be there and is not. *)
Definition column (f : data) (k : str) (opt : bool) (l : list value) : Prop :=
  (f_get f k = Ret (VList l) \/ f_get f k = Ret (VSL l)) /\ (opt = true -> f_in f k = true).
Definition missing (f : data) (k : str) : Prop := f_in f k = false \/ f_get f k = Raise KeyErr \/ f_get f k = Ret VNone.
(** The table is readable and its shortest column has n values. *)
Definition readable (f : data) (t : with_table) (n : nat) : Prop :=
  (forall k e, In (k, e) t -> (exists l, column f k (snd e) l /\ n <= length l) \/ (snd e = true /\ missing f k)) /\
  (exists k e l, In (k, e) t /\ column f k (snd e) l /\ length l = n).
(** The i-th row: the i-th values of the columns, nothing for what is missing. *)
Inductive cell (f : data) (i : nat) (kv : str * (str * nat * bool)) : arg -> Prop :=
| cell_value l v : column f (fst kv) (snd (snd kv)) l -> nth_error l i = Some v -> cell f i kv (AVal v)
| cell_none : snd (snd kv) = true -> missing f (fst kv) -> cell f i kv (AVal VNone).
Definition row_of (f : data) (t : with_table) (i : nat) (r : list arg) : Prop := Forall2 (cell f i) t r.
(** The list of results, or the first failure. *)
Inductive results : list (outcome value) -> outcome (list value) -> Prop :=
| rs_nil : results [] (Ret [])
| rs_ret v l r : results l (Ret r) -> results (Ret v :: l) (Ret (v :: r))
| rs_late v l e : results l (Raise e) -> results (Ret v :: l) (Raise e)
| rs_raise e l : results (Raise e :: l) (Raise e).

(** Text with k spaces after every newline. *)
Inductive spaced (k : nat) : str -> str -> Prop :=
| sp_nil : spaced k [] []
| sp_line s t : spaced k s t -> spaced k (10%N :: s) (10%N :: repeat 32%N k ++ t)
| sp_char c s t : c <> 10%N -> spaced k s t -> spaced k (c :: s) (c :: t).
