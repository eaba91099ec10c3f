(** Model of the parser of type contents (src/TypeContentsParser.nw) and of the
    conversion it directs (src/CifFile_module.nw 4144-4224, 4254-4259). *)
From Coq Require Import String Ascii List NArith Bool.
From Verif Require Import PyBase.
Import ListNotations.

(** A structure: an identifier, or a list; names of containers are dropped. *)
Inductive tree := TName (s : str) | TList (l : list tree).

(** ignore: [ \t\n\r] *)
Definition blank (c : N) : bool := existsb (N.eqb c) [32; 9; 10; 13]%N.
Definition letter (c : N) : bool := (((65 <=? c) && (c <=? 90)) || ((97 <=? c) && (c <=? 122)))%N.
Fixpoint skip (s : str) : str := match s with c :: r => if blank c then skip r else s | [] => [] end.
Fixpoint run (s : str) : str * str :=
  match s with
  | c :: r => if letter c then let (w, t) := run r in (c :: w, t) else ([], s)
  | [] => ([], [])
  end.
(** The rest after a character that is expected. *)
Definition after (c : N) (s : str) : option str := match s with x :: r => if N.eqb x c then Some r else None | [] => None end.
(** rules base_element and element_list.  The longest match decides between
    container (letters and a bracket) and identifier.  A token that is not expected
    raises YappsSyntaxError; [n] bounds the depth. *)
Fixpoint p_base (n : nat) (s : str) {struct n} : outcome (tree * str) :=
  match n with
  | O => Raise OutOfFuel
  | Datatypes.S n' =>
      let (w, r) := run (skip s) in
      match w with
      | [] => Raise SyntaxErr
      | _ =>
          match after 40 r with
          | Some r' =>
              obind (p_elements n' r') (fun lr =>
              match after 41 (skip (snd lr)) with
              | Some r2 => Ret (TList (fst lr), r2)
              | None => Raise SyntaxErr
              end)
          | None => Ret (TName w, r)
          end
      end
  end
with p_elements (n : nat) (s : str) {struct n} : outcome (list tree * str) :=
  match n with
  | O => Raise OutOfFuel
  | Datatypes.S n' =>
      obind (p_base n' s) (fun xr =>
      match after 44 (skip (snd xr)) with
      | Some r => obind (p_elements n' r) (fun lr => Ret (fst xr :: fst lr, snd lr))
      | None => Ret ([fst xr], snd xr)
      end)
  end.
(** rule input, and interpret_structure *)
Definition interpret_structure (s : str) : outcome tree :=
  obind (p_elements (2 * length s + 2) s) (fun lr =>
  match skip (snd lr) with
  | [] => match fst lr with [x] => Ret x | l => Ret (TList l) end
  | _ => Raise SyntaxErr
  end).

(** ** Conversion *)
(** Values to convert and converted values: [conv] is the function chosen by
    convert_single_value for a type name (4162-4175); for a list it is the
    identity. *)
Inductive item := One (s : str) | Many (l : list item).
Inductive result (C : Type) := Done (c : C) | Same (i : item) | Items (l : list (result C)).
Arguments Done {C}. Arguments Same {C}. Arguments Items {C}.
Definition single {C} (conv : str -> item -> outcome C) (t : tree) (i : item) : outcome (result C) :=
  match t with
  | TName n => obind (conv n i) (fun c => Ret (Done c))
  | TList _ => Ret (Same i)
  end.
Fixpoint map_o {A B} (f : A -> outcome B) (l : list A) : outcome (list B) :=
  match l with [] => Ret [] | x :: r => obind (f x) (fun y => obind (map_o f r) (fun ys => Ret (y :: ys))) end.
(** convert_simple_list (4189-4206): a text is iterated over its characters. *)
Definition elements (i : item) : list item := match i with Many l => l | One s => map (fun c => One [c]) s end.
Definition simple_list {C} (conv : str -> item -> outcome C) (ts : list tree) (i : item) : outcome (result C) :=
  if Nat.eqb (length (elements i)) (length ts)
  then obind (map_o (fun ti => single conv (fst ti) (snd ti)) (combine ts (elements i))) (fun l => Ret (Items l))
  else Raise ValueErr.
(** convert_list_values (4210-4224); [repeated]: the dimension is given and its
    first number is not 1. *)
Definition list_values {C} (conv : str -> item -> outcome C) (t : tree) (repeated : bool) (i : item) : outcome (result C) :=
  let f := match t with TName _ => single conv t | TList ts => simple_list conv ts end in
  if repeated then obind (map_o f (elements i)) (fun l => Ret (Items l)) else f i.
