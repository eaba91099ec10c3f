(** Shared vocabulary: python text, dictionaries, lists, exceptions as values.
    No proofs here. *)
From Coq Require Import String Ascii List NArith ZArith Bool.
Import ListNotations.
Open Scope N_scope.

(** Python [str]: the list of its unicode code points. *)
Definition str := list N.

(** Literals. *)
Fixpoint u (s : string) : str :=
  match s with
  | EmptyString => []
  | String c r => N_of_ascii c :: u r
  end.

Definition ch (c : ascii) : N := N_of_ascii c.

(** [str.lower], ASCII letters only (simplification: python also maps other
    cased letters; ASCII names are the ones CIF 1.x allows). *)
Definition lower_char (c : N) : N :=
  if (65 <=? c) && (c <=? 90) then c + 32 else c.
Definition lower (s : str) : str := map lower_char s.

Fixpoint str_eqb (a b : str) : bool :=
  match a, b with
  | [], [] => true
  | x :: a', y :: b' => (x =? y) && str_eqb a' b'
  | _, _ => false
  end.

(** [x in s] for a one-character string [x]. *)
Definition cmem (c : N) (s : str) : bool := existsb (N.eqb c) s.

(** [s.startswith(p)] *)
Fixpoint starts_with (p s : str) : bool :=
  match p, s with
  | [], _ => true
  | x :: p', y :: s' => (x =? y) && starts_with p' s'
  | _ :: _, [] => false
  end.

(** [p in s] for strings. *)
Fixpoint substr (p s : str) : bool :=
  starts_with p s ||
  match s with [] => false | _ :: s' => substr p s' end.

(** Exceptions raised by the modelled code. *)
Inductive exc :=
| KeyErr | ValueErr | TypeErr | StarErr | StarLengthErr | IndexErr
| AttributeErr | CifErr | RecursionErr | SyntaxErr | NotImplErr | NameErr | OutOfFuel.

Inductive outcome (A : Type) :=
| Ret (a : A)
| Raise (e : exc).
Arguments Ret {A} a.
Arguments Raise {A} e.

Definition obind {A B} (m : outcome A) (f : A -> outcome B) : outcome B :=
  match m with Ret a => f a | Raise e => Raise e end.

Definition is_ret {A} (m : outcome A) : bool :=
  match m with Ret _ => true | Raise _ => false end.

(** Python list operations used by the code. *)
Section PyList.
  Context {A : Type} (eqb : A -> A -> bool).

  Definition mem (x : A) (l : list A) : bool := existsb (eqb x) l.

  (** [l.remove(x)] when [x] is present; the list unchanged otherwise (the
      callers model the ValueError separately). *)
  Fixpoint remove1 (x : A) (l : list A) : list A :=
    match l with
    | [] => []
    | y :: l' => if eqb x y then l' else y :: remove1 x l'
    end.

  (** [l.index(x)] *)
  Fixpoint index_of (x : A) (l : list A) : option nat :=
    match l with
    | [] => None
    | y :: l' => if eqb x y then Some 0%nat
                 else option_map Datatypes.S (index_of x l')
    end.
End PyList.

(** [l.insert(pos,x)]: negative positions count from the end, positions
    beyond either end are clamped. *)
Definition clamp_pos (n : nat) (pos : Z) : nat :=
  let p := (if (pos <? 0)%Z then (pos + Z.of_nat n)%Z else pos) in
  Nat.min n (Z.to_nat p).
Definition py_insert {A} (pos : Z) (x : A) (l : list A) : list A :=
  let p := clamp_pos (length l) pos in
  firstn p l ++ x :: skipn p l.

(** Insertion-ordered dictionaries. *)
Section PyDict.
  Context {K V : Type} (eqb : K -> K -> bool).

  Fixpoint dget (k : K) (d : list (K * V)) : option V :=
    match d with
    | [] => None
    | (k', v) :: d' => if eqb k k' then Some v else dget k d'
    end.

  (** [d[k]=v] / [d.update({k:v})]: position kept when [k] is present. *)
  Fixpoint dset (k : K) (v : V) (d : list (K * V)) : list (K * V) :=
    match d with
    | [] => [(k, v)]
    | (k', v') :: d' => if eqb k k' then (k', v) :: d' else (k', v') :: dset k v d'
    end.

  (** [del d[k]] when present. *)
  Fixpoint ddel (k : K) (d : list (K * V)) : list (K * V) :=
    match d with
    | [] => []
    | (k', v') :: d' => if eqb k k' then d' else (k', v') :: ddel k d'
    end.

  Definition dkeys (d : list (K * V)) : list K := map fst d.
  Definition dmem (k : K) (d : list (K * V)) : bool :=
    match dget k d with Some _ => true | None => false end.
End PyDict.

(** Data values held in a block.  A number is carried by its printed form
    ([str(x)]), which is all the modelled code looks at.  [VList] is a plain
    python list or tuple; [VSL]/[VDict] are StarFile.StarList / StarDict
    (src/StarFile.nw 1194-1207). *)
Inductive value :=
| VStr (s : str)
| VNum (printed : str)
| VNone
| VList (l : list value)
| VSL (l : list value)
| VDict (d : list (str * value)).
