(** Specification vocabulary for printed blocks: layout of tokens, and the content
    of a block as it should appear in print. *)
From Coq Require Import String Ascii List NArith ZArith Bool.
From Verif Require Import PyBase StarBlockModel ScanModel FormatModel ReadModel WriteModel LoopSpec ReadSpec FoldSpec.
Import ListNotations.

(** Only blanks: spaces and newlines. *)
Definition blanks_only (w : str) : Prop := Forall (fun c => c = 32%N \/ c = 10%N) w.

(** [o] consists of the tokens [ts] in order and of blanks; every token has a blank
    before it or begins with a newline. *)
Fixpoint laid (ts : list str) (o : str) : Prop :=
  match ts with
  | [] => blanks_only o
  | t :: ts' => exists w r, o = w ++ t ++ r /\ blanks_only w /\ (w <> [] \/ first_is 10 t = true) /\ laid ts' r
  end.
(** [o] consists of the strings [ss] in order and of blanks; strings marked as
    separators may be left out. *)
Fixpoint interleaved (ss : list (bool * str)) (o : str) : Prop :=
  match ss with
  | [] => o = []
  | (sep, s) :: ss' => exists w t r, o = w ++ t ++ r /\ blanks_only w /\ (t = s \/ (sep = true /\ t = [])) /\ interleaved ss' r
  end.

(** Lists and tables. *)
Definition compound (v : value) : bool := match v with VList _ | VSL _ | VDict _ => true | _ => false end.

(** Values made of texts, lists and tables. *)
Inductive textual : value -> Prop :=
| t_str s : textual (VStr s)
| t_list l : Forall textual l -> textual (VList l)
| t_slist l : Forall textual l -> textual (VSL l)
| t_dict d : Forall (fun kv => textual (snd kv)) d -> textual (VDict d).

(** Pieces of a printed block. *)
Inductive piece := PName (t : str) | PLoop | PVal (v : value) (f : str).
Definition ptext (p : piece) : str := match p with PName t => t | PLoop => u "loop_" | PVal _ f => f end.
(** Two values of which one is a list or table need no blank between them. *)
Definition touching (q : option piece) (p : piece) : bool :=
  match q, p with Some (PVal v _), PVal v' _ => compound v || compound v' | _, _ => false end.
Definition gap (q : option piece) (p : piece) (w : str) : Prop :=
  w <> [] \/ first_is 10 (ptext p) = true \/ touching q p = true.
Fixpoint laid_after (q : option piece) (ps : list piece) (o : str) : Prop :=
  match ps with
  | [] => blanks_only o
  | p :: ps' => exists w r, o = w ++ ptext p ++ r /\ blanks_only w /\ gap q p w /\ laid_after (Some p) ps' r
  end.

(** Entry [it] of the output order of [b] shows [e]: dataname spelling and value,
    or loop with its columns and rows. *)
Definition shows (b : block) (it : oitem) (e : item) : Prop :=
  match it, e with
  | ON n, Kv t v => n = lower t /\ dget str_eqb n (b_true b) = Some t /\ holds_item b e
  | OL k, Lp ts vs =>
      dget Z.eqb k (b_loops b) = Some (map lower ts)
      /\ Forall (fun t => dget str_eqb (lower t) (b_true b) = Some t) ts /\ holds_item b e
  | _, _ => False
  end.

(** The tokens of an entry with text values: names, loop_, and a written form of
    every value, for the delimiters that the hints [hs] may ask for. *)
Definition spelt (g : grammar) (maxout : Z) (hs : list hint) (v : value) (f : str) : Prop :=
  exists s req, v = VStr s /\ (req = None \/ exists h, In h hs /\ req = h_delim h) /\ format_string g maxout req s = Ret f.
Definition tokens_of (g : grammar) (maxout : Z) (hs : list hint) (e : item) (ts : list str) : Prop :=
  match e with
  | Kv t v => exists f, ts = [t; f] /\ spelt g maxout hs v f
  | Lp names vs => exists fs, ts = u "loop_" :: names ++ fs /\ Forall2 (spelt g maxout hs) vs fs
  end.
(** Entries of texts with datanames without blanks; no column hint of a loop is 0. *)
Definition plain_name (t : str) : Prop := (exists r, t = u "_" ++ r) /\ forall c, In c t -> ~ In c [32; 10; 9]%N.
Definition text_entry (hs : list hint) (e : item) : Prop :=
  match e with
  | Kv t v => plain_name t /\ exists s, v = VStr s
  | Lp names vs => Forall plain_name names /\ Forall (fun v => exists s, v = VStr s) vs
      /\ forall t, In t names -> hint_col (loop_hint hs (lower t)) <> 0%Z
  end.
