(** What a list of tokens should be. *)
From Coq Require Import String Ascii List NArith ZArith PeanoNat Bool.
From Verif Require Import PyBase ScanModel FlexModel BufferModel.
Import ListNotations.

(** Token number [n] (from 0) of a text. *)
Inductive nth_token : start -> str -> nat -> option tok -> str -> Prop :=
| nt_first : forall c s t m c' r, flex_scan c s = Ret (t, m, c', r) -> nth_token c s 0 t m
| nt_next : forall c s t m c' r n t' m', flex_scan c s = Ret (t, m, c', r) -> nth_token c' r n t' m' -> nth_token c s (S n) t' m'.

(** How many tokens have been read: one more each time that the next is asked for. *)
Definition asked (n : Z) (o : call) : Z := match o with Token i => if Z.eqb i n then (n + 1)%Z else n | _ => n end.
Definition read_by (os : list call) : Z := fold_left asked os 0%Z.

(** The text up to a NUL. *)
Inductive text_to_nul : str -> str -> Prop :=
| tn_all : forall s, ~ In 0%N s -> text_to_nul s s
| tn_nul : forall a b, ~ In 0%N a -> text_to_nul (a ++ 0%N :: b) a.

Definition in_int (o : call) : Prop := match o with Token i => (-2 ^ 31 <= i < 2 ^ 31)%Z | _ => True end.
Definition only_reads (o : call) : Prop := match o with Token _ | LastTen => True | _ => False end.

(** A list in good order, and the tokens in it. *)
Inductive alive : cbuf -> list entry -> Prop :=
| al_null : forall c s, alive (CB Null 0 0 c s) []
| al_live : forall l room c s, (N.of_nat (length l) <= room)%N -> (room <= N.of_nat (length l) + 4192)%N ->
    alive (CB (Live l room) (N.of_nat (length l)) room c s) l.

(** The list and the scanner of FlexModel.v agree at place [pos] of the parser. *)
Definition same (pos : nat) (b : cbuf) (l : list entry) (st : fstate) : Prop :=
  alive b l /\ cb_start b = f_start st /\ cb_text b = f_inp st /\
  match f_pend st with
  | None => length l = pos
  | Some e => length l = Datatypes.S pos /\ nth_error l pos = Some e
  end.
