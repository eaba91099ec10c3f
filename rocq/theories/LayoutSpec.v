(** How python reads the layout of a text, and the layout that a dREL method asks for. *)
From Coq Require Import String Ascii List NArith PeanoNat Bool.
From Verif Require Import PyBase DrelModel.
Import ListNotations.
Open Scope string_scope. Open Scope list_scope. Open Scope nat_scope.

(** ** Lines and blocks *)
Fixpoint split_lines (s : str) : list str :=
  match s with
  | [] => [[]]
  | c :: r => if N.eqb c 10 then [] :: split_lines r
              else match split_lines r with l :: ls => (c :: l) :: ls | [] => [[c]] end
  end.
Fixpoint indent (s : str) : nat * str :=
  match s with
  | c :: r => if N.eqb c 32 then (S (fst (indent r)), snd (indent r)) else (0, s)
  | [] => (0, [])
  end.
Definition full (l : nat * str) : bool := match snd l with [] => false | _ => true end.
Definition py_lines (s : str) : list (nat * str) := filter full (map indent (split_lines s)).
(** A line that opens a block ends in a colon; its keyword is its first word. *)
Definition opens (t : str) : bool := N.eqb (last t 0%N) 58.
Definition low (c : N) : bool := (N.leb 97 c && N.leb c 122)%N.
Fixpoint first_word (t : str) : str := match t with c :: r => if low c then c :: first_word r else [] | [] => [] end.
Inductive node := Line | Opens (w : str) (body : list node).
(** The lines at the indentation [n], each that opens a block followed by the deeper
    lines of the block. *)
Inductive block : nat -> list (nat * str) -> list node -> Prop :=
| b_nil n : block n [] []
| b_line n t ls l : opens t = false -> block n ls l -> block n ((n, t) :: ls) (Line :: l)
| b_open n m t body ls b l : opens t = true -> n < m -> b <> [] -> Forall (fun x => n < fst x) body -> block m body b -> block n ls l ->
    block n ((n, t) :: body ++ ls) (Opens (first_word t) b :: l).
Definition laid (s : str) (l : list node) : Prop := block 0 (py_lines s) l.

(** ** The layout of a method *)
Definition small_shape (m : small) : list node :=
  match m with
  | MExprs l => map (fun _ => Line) l
  | MAssign _ _ _ => [Line]
  | MFancy _ l => map (fun _ => Line) l
  | MPrint _ | MBreak | MNext => [Line]
  end.
(** Before the lines of a loop over a category come those that find its rows. *)
Definition rows (test : bool) : list node :=
  [Line; Line; Line; Line; Opens (u "if") [Line; Line; Line]; Line] ++ (if test then [Line] else []).
Definition given (s : str) : bool := match s with [] => false | _ => true end.
Fixpoint shape (s : cs) : list node :=
  match s with
  | CSimple l => flat_map small_shape l
  | CIf c s elifs els =>
      [Opens (u "if") (flat_map shape s)]
      ++ map (fun cl => Opens (u "elif") (flat_map shape (snd cl))) elifs
      ++ match els with Some l => [Opens (u "else") (flat_map shape l)] | None => [] end
  | CFor _ _ s => [Opens (u "for") (flat_map shape s)]
  | CDo _ _ _ _ s => [Opens (u "for") (flat_map shape s)]
  | CLoop _ _ _ op _ s => rows (given op) ++ [Opens (u "for") (flat_map shape s)]
  | CWith _ _ s => flat_map shape s
  | CRepeat s => [Opens (u "while") (flat_map shape s)]
  | CFunc _ _ s => [Opens (u "def") (flat_map shape s ++ [Line])]
  end.

(** ** Methods that the grammar makes, with texts in one line *)
Definition flat (s : str) : bool := forallb (fun c => negb (N.eqb c 10)) s.
Definition word (s : str) : bool := given s && flat s && negb (N.eqb (hd 0%N s) 32) && negb (N.eqb (last s 0%N) 58).
Section Each.
  Context (f : cx -> bool).
  Definition each_opt (o : option cx) : bool := match o with Some e => f e | None => true end.
End Each.
Definition some {A} (l : list A) : bool := match l with [] => false | _ => true end.
Fixpoint flat_cx (c : cx) : bool :=
  match c with
  | XName s | XTag s | XLit s => word s
  | XGroup l | XConv l | XList l => forallb flat_cx l
  | XTable l => forallb (fun ke => flat (fst ke) && flat_cx (snd ke)) l
  | XAttr p s => flat_cx p && flat s
  | XSub p e => flat_cx p && flat_cx e
  | XRange p a b c => flat_cx p && each_opt flat_cx a && each_opt flat_cx b && each_opt flat_cx c
  | XSlices p l => flat_cx p && forallb flat_item l
  | XCall f l => word f && forallb flat_cx l
  | XBin op a b => flat_cx a && flat_cx b
  | XNot a => flat_cx a
  | XSign op a => flat op && flat_cx a
  end
with flat_item (i : citem) : bool :=
  match i with
  | IExpr e => flat_cx e
  | IRange a b c => each_opt flat_cx a && each_opt flat_cx b && each_opt flat_cx c
  end.
Definition flat_small (m : small) : bool :=
  match m with
  | MExprs l => some l && forallb flat_cx l
  | MAssign lhs _ rhs => some lhs && forallb flat_cx lhs && some rhs && forallb flat_cx rhs
  | MFancy cat l => some l && forallb (fun ke => flat_cx (snd ke)) l
  | MPrint e => flat_cx e
  | MBreak | MNext => true
  end.
Fixpoint flat_cs (s : cs) : bool :=
  match s with
  | CSimple l => some l && forallb flat_small l
  | CIf c s elifs els =>
      flat_cx c && some s && forallb flat_cs s
      && forallb (fun cl => flat_cx (fst cl) && some (snd cl) && forallb flat_cs (snd cl)) elifs
      && match els with Some l => some l && forallb flat_cs l | None => true end
  | CFor ids l s => forallb flat ids && forallb flat_cx l && some s && forallb flat_cs s
  | CDo id a b c s => flat id && flat_cx a && flat_cx b && each_opt flat_cx c && some s && forallb flat_cs s
  | CLoop alias cat idx op var s => flat idx && flat op && flat var && some s && forallb flat_cs s
  | CWith alias cat s => some s && forallb flat_cs s
  | CRepeat s => some s && forallb flat_cs s
  | CFunc f args s => word f && forallb flat args && some s && forallb flat_cs s
  end.
(** The names in the dictionary, and in the tables of the translation, are in one line. *)
Record flat_env (e : env) : Prop := FlatEnv {
  f_name : forall c a x, e_name e c a = Ret x -> flat x = true;
  f_names : forall c, word (e_names e c) = true;
  f_key : forall c x, e_key e c = Ret x -> flat x = true;
  f_cats : forall c l, In (c, l) (e_loopable e) -> flat c = true
}.
Record flat_sp (st : sp) : Prop := FlatSp {
  f_ids : forall a cat i b, In (a, (cat, i, b)) (s_ids st) -> flat i = true;
  f_with : forall a v k o, In (a, (v, k, o)) (s_with st) -> word v = true
}.
