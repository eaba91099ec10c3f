(** The language of type contents, and conversion. *)
From Coq Require Import String Ascii List NArith Bool.
From Verif Require Import PyBase TypeModel.
Import ListNotations.

Definition blanks (s : str) : Prop := Forall (fun c => In c [32; 9; 10; 13]%N) s.
Definition word (w : str) : Prop := w <> [] /\ Forall (fun c => (65 <= c <= 90 \/ 97 <= c <= 122)%N) w.
(** A text of a structure; blanks are allowed before every token, but not between
    the name of a container and its bracket. *)
Inductive elem : tree -> str -> Prop :=
| e_name ws w : blanks ws -> word w -> elem (TName w) (ws ++ w)
| e_list ws w l s ws' : blanks ws -> word w -> elems l s -> blanks ws' -> elem (TList l) (ws ++ w ++ 40%N :: s ++ ws' ++ [41%N])
with elems : list tree -> str -> Prop :=
| es_one x s : elem x s -> elems [x] s
| es_more x l s ws s' : elem x s -> blanks ws -> elems l s' -> elems (x :: l) (s ++ ws ++ 44%N :: s').
(** A whole text: several elements stand for a list, a single one for itself. *)
Definition type_text (t : tree) (s : str) : Prop :=
  exists l s0 ws, s = s0 ++ ws /\ elems l s0 /\ blanks ws /\ (l = [t] \/ (t = TList l /\ length l <> 1%nat)).
(** Printing with a fixed container name. *)
Fixpoint print (t : tree) : str :=
  match t with
  | TName w => w
  | TList l => u "List(" ++ (fix more (l : list tree) : str := match l with [] => [] | [x] => print x | x :: r => print x ++ 44%N :: more r end) l ++ [41%N]
  end.
(** Words, and lists that are not empty. *)
Fixpoint proper (t : tree) : Prop :=
  match t with
  | TName w => word w
  | TList l => l <> [] /\ (fix all (l : list tree) : Prop := match l with [] => True | x :: r => proper x /\ all r end) l
  end.
(** Conversion of a list that has the given types: each element by its own type. *)
Definition converted {C} (conv : str -> item -> outcome C) (types : list tree) (values : list item) (r : list (result C)) : Prop :=
  length types = length values /\ length r = length values
  /\ forall k n v, nth_error types k = Some (TName n) -> nth_error values k = Some v -> exists c, nth_error r k = Some (Done c) /\ conv n v = Ret c.
