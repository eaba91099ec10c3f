(** What is to be had from the methods of a dictionary, without the state of the lexer
    and without splitlines. *)
From Coq Require Import String Ascii List NArith PeanoNat Bool.
From Verif Require Import PyBase StarBlockModel ValidateModel TreeModel LexModel DrelModel SentenceModel LexSpec.
Import ListNotations.
Open Scope nat_scope.

(** Characters that end a line for python. *)
Definition break (c : N) : Prop := (10 <= c <= 13 \/ 28 <= c <= 30 \/ c = 0x85 \/ c = 0x2028 \/ c = 0x2029)%N.
(** Every end of a line is a newline: \r\n is one end. *)
Inductive unified : str -> str -> Prop :=
| unified_nil : unified [] []
| unified_char c s t : ~ break c -> unified s t -> unified (c :: s) (c :: t)
| unified_crlf s t : unified s t -> unified (13%N :: 10%N :: s) (10%N :: t)
| unified_break c s t : break c -> (c = 13%N -> hd_error s <> Some 10%N) -> unified s t -> unified (c :: s) (10%N :: t).

(** A text is a method with the statements [l]. *)
Definition stands_for (s : str) (l : list cs) : Prop := exists ts d, reads 0 s ts d /\ method ts = Ret l.

(** The text that is parsed for a method: it ends with a newline, which is added where
    it is missing. *)
Definition parsed_text (s t : str) : Prop :=
  exists x, unified s x /\ ((s <> [] /\ break (last s 0%N) /\ t = x) \/ ((s = [] \/ ~ break (last s 0%N)) /\ t = x ++ [10%N])).
Definition is_method (s : str) (l : list cs) : Prop := exists t, parsed_text s t /\ stands_for t l.

(** The translations of methods with their purposes: of those for evaluation which can be
    read. *)
Inductive translations (make : list cs -> outcome str) : list (value * value) -> list str -> Prop :=
| translations_nil : translations make [] []
| translations_other p x r ts : p <> VStr (u "Evaluation") -> translations make r ts -> translations make ((p, x) :: r) ts
| translations_bad s r ts : (forall l, ~ is_method s l) -> translations make r ts -> translations make ((VStr (u "Evaluation"), VStr s) :: r) ts
| translations_good s l t r ts : is_method s l -> make l = Ret t -> translations make r ts ->
    translations make ((VStr (u "Evaluation"), VStr s) :: r) (t :: ts).
(** What stops the translation: a method that is no text, or can not be translated. *)
Inductive stopped (make : list cs -> outcome str) : list (value * value) -> exc -> Prop :=
| stopped_text x r : (forall s, x <> VStr s) -> stopped make ((VStr (u "Evaluation"), x) :: r) AttributeErr
| stopped_make s l e r : is_method s l -> make l = Raise e -> stopped make ((VStr (u "Evaluation"), VStr s) :: r) e
| stopped_other p x r e : p <> VStr (u "Evaluation") -> stopped make r e -> stopped make ((p, x) :: r) e
| stopped_bad s r e : (forall l, ~ is_method s l) -> stopped make r e -> stopped make ((VStr (u "Evaluation"), VStr s) :: r) e
| stopped_good s l t r e : is_method s l -> make l = Ret t -> stopped make r e -> stopped make ((VStr (u "Evaluation"), VStr s) :: r) e.

(** The methods of a definition with their purposes: one, or as many as there are both of
    purposes and of texts. *)
Inductive pairs : list value -> list value -> list (value * value) -> Prop :=
| pairs_no_purpose es : pairs [] es []
| pairs_no_text ps : pairs ps [] []
| pairs_next p ps e es l : pairs ps es l -> pairs (p :: ps) (e :: es) ((p, e) :: l).
Definition a_list (v : value) (l : list value) : Prop := v = VList l \/ v = VSL l.
(** What python takes from a value one by one. *)
Inductive elements : value -> list value -> Prop :=
| elements_list v l : a_list v l -> elements v l
| elements_text s : elements (VStr s) (map (fun c => VStr [c]) s)
| elements_table d : elements (VDict d) (map (fun kv => VStr (fst kv)) d).
Definition methods_of (t : table) (l : list (value * value)) : Prop :=
  exists e p, tget (u "_method.expression") t = Some e /\ tget (u "_method.purpose") t = Some p
  /\ (((forall es, ~ a_list e es) /\ l = [(p, e)]) \/ exists es ps, a_list e es /\ elements p ps /\ pairs ps es l).
(** Which definitions have methods to be translated. *)
Definition has_methods (t : table) : Prop :=
  tget (u "_method.expression") t <> None /\ tget (u "_name.category_id") t <> Some (VStr (u "function")).
(** A definition afterwards. *)
Definition with_python (t : table) (ts : list str) (t' : table) : Prop :=
  (ts = [] /\ t' = t) \/
  (ts <> [] /\ tget (u "_method.py_expression") t' = Some (VList (map VStr ts))
   /\ forall a, lower a <> u "_method.py_expression" -> tget a t' = tget a t).
Definition done_one (make : bool -> list cs -> outcome str) (t t' : table) : Prop :=
  (~ has_methods t /\ t' = t)
  \/ (has_methods t /\ exists l ts, methods_of t l /\ translations (make (is_category t)) l ts /\ with_python t ts t').
(** What stops the translation at one definition. *)
Definition stopped_at (make : bool -> list cs -> outcome str) (t : table) (x : exc) : Prop :=
  has_methods t /\ (((forall l, ~ methods_of t l) /\ (x = KeyErr \/ x = TypeErr)) \/ exists l, methods_of t l /\ stopped (make (is_category t)) l x).
Definition done (make : str -> bool -> list cs -> outcome str) (kt kt' : str * table) : Prop := fst kt = fst kt' /\ done_one (make (fst kt)) (snd kt) (snd kt').

(** ** Functions *)
(** The text of a function is parsed without a newline at its end. *)
Definition function_read (s t : str) : Prop :=
  exists x, unified s x /\ ((s <> [] /\ break (last s 0%N) /\ x = t ++ [10%N]) \/ ((s = [] \/ ~ break (last s 0%N)) /\ t = x)).
Definition is_function (s : str) (l : list cs) : Prop := exists t, function_read s t /\ stands_for t l.
(** The functions that statements define. *)
Definition defines (l : list cs) (f : str) : Prop := exists args b, In (CFunc f args b) l.
(** A definition of a function: its name, and its one text for evaluation. *)
Definition function_def (t : table) (ns : value * str) : Prop :=
  tget (u "_name.object_id") t = Some (fst ns) /\ exists ps es l1 l2 l, tget (u "_method.purpose") t = Some (VList ps) /\ tget (u "_method.expression") t = Some (VList es)
  /\ pairs ps es l /\ l = l1 ++ (VStr (u "Evaluation"), VStr (snd ns)) :: l2 /\ forall p x, In (p, x) (l1 ++ l2) -> p <> VStr (u "Evaluation").
Definition a_function (t : table) : Prop := tget (u "_name.category_id") t = Some (VStr (u "function")).
Inductive function_defs : defs -> list (value * str) -> Prop :=
| function_defs_nil : function_defs [] []
| function_defs_other k t d l : ~ a_function t -> function_defs d l -> function_defs ((k, t) :: d) l
| function_defs_next k t d ns l : a_function t -> function_def t ns -> function_defs d l -> function_defs ((k, t) :: d) (ns :: l).
