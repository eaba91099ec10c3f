(** What the statements of dREL say: the rows of tokens that stand for a tree. *)
From Coq Require Import String Ascii List NArith PeanoNat Bool.
From Verif Require Import PyBase LexModel DrelModel PhraseSpec.
Import ListNotations.
Open Scope nat_scope.

Notation row := (list (kind * str)).

Inductive dots_say : list (str * cx) -> row -> Prop :=
| D_one s e v w te : says 0 e te -> dots_say [(s, e)] ((LIT 46, v) :: (ID, s) :: (LIT 61, w) :: te)
| D_more s e l v w x te ts : says 0 e te -> dots_say l ts ->
    dots_say ((s, e) :: l) ((LIT 46, v) :: (ID, s) :: (LIT 61, w) :: te ++ (LIT 44, x) :: ts).

(** Statements of one line. *)
Inductive small_says : small -> row -> Prop :=
| M_exprs l ts : says_all true l ts -> small_says (MExprs l) ts
| M_assign k v l r tl tr : k = AUGOP \/ k = LIT 61 -> says_all true l tl -> says_all true r tr -> small_says (MAssign l v r) (tl ++ (k, v) :: tr)
| M_fancy cat l v w ts : dots_say l ts -> small_says (MFancy cat l) ((ID, cat) :: (OPEN_PAREN, v) :: ts ++ [(CLOSE_PAREN, w)])
| M_print v e te : says 0 e te -> small_says (MPrint e) ((PRINT, v) :: te)
| M_break v : small_says MBreak [(BREAK, v)]
| M_next v : small_says MNext [(NEXT, v)].
Inductive smalls_say : list small -> row -> Prop :=
| M_one m ts : small_says m ts -> smalls_say [m] ts
| M_more m l v tm ts : small_says m tm -> smalls_say l ts -> smalls_say (m :: l) (tm ++ (LIT 59, v) :: ts).
(** The end of a line, perhaps after a semicolon. *)
Inductive line_end : row -> Prop :=
| E_nl v n : newlines n -> line_end ((NEWLINE, v) :: n)
| E_semi x v n : newlines n -> line_end ((LIT 59, x) :: (NEWLINE, v) :: n).

Inductive ids_say : list str -> row -> Prop :=
| I_one s : ids_say [s] [(ID, s)]
| I_more s l v ts : ids_say l ts -> ids_say (s :: l) ((ID, s) :: (LIT 44, v) :: ts).
Inductive for_ids : list str -> row -> Prop :=
| I_bare l ts : ids_say l ts -> for_ids l ts
| I_square l v w ts : ids_say l ts -> for_ids l ((LIT 91, v) :: ts ++ [(LIT 93, w)]).
(** Arguments of a function with their types, which are lists. *)
Inductive args_say : list str -> row -> Prop :=
| G_one s v l td : says 8 (XList l) td -> args_say [s] ((ID, s) :: (LIT 58, v) :: td)
| G_more s v w l ss td ts : says 8 (XList l) td -> args_say ss ts -> args_say (s :: ss) ((ID, s) :: (LIT 58, v) :: td ++ (LIT 44, w) :: ts).

Inductive loop_tail : str -> str -> str -> row -> Prop :=
| P_none : loop_tail [] [] [] []
| P_index i v : loop_tail i [] [] [(LIT 58, v); (ID, i)]
| P_test i k op x v : In k [LIT 60; LIT 62; GTE; LTE; NEQ; ISEQUAL] -> loop_tail i op x [(LIT 58, v); (ID, i); (k, op); (ID, x)].

(** Tokens that do not go on with an expression before them. *)
Definition apart (ts : row) : Prop :=
  forall k v r, ts = (k, v) :: r -> ~ In k [REAL; OPEN_PAREN; LIT 91; LIT 43; LIT 45; NOT].

(** [states b o c ts]: the tokens [ts] stand for the statement [c]; with [o] an
    "else" behind them could belong to an "if" at their end.  With [b] = true
    no "else" stands where two "if" could have it, and what a "for" or "do" is
    over is not followed by a token that can go on with it. *)
Inductive states (b : bool) : bool -> cs -> row -> Prop :=
| S_simple l ts e : smalls_say l ts -> line_end e -> states b false (CSimple l) (ts ++ e)
| S_if c s l els v v1 v2 n o1 o tc ts tt : says 0 c tc -> newlines n -> suite b o1 s ts -> tail_says b o1 l els o tt ->
    states b o (CIf c s l els) ((IF, v) :: (OPEN_PAREN, v1) :: tc ++ (CLOSE_PAREN, v2) :: n ++ ts ++ tt)
| S_for ids l s v w o ti tl ts : for_ids ids ti -> says_all true l tl -> (b = true -> apart ts) -> suite b o s ts ->
    states b o (CFor ids l s) ((FOR, v) :: ti ++ (IN_, w) :: tl ++ ts)
| S_do i x y s v w z o tx ty ts : says 0 x tx -> says 0 y ty -> (b = true -> apart ts) -> suite b o s ts ->
    states b o (CDo i x y None s) ((DO, v) :: (ID, i) :: (LIT 61, w) :: tx ++ (LIT 44, z) :: ty ++ ts)
| S_do_step i x y e s v w z z' o tx ty te ts : says 0 x tx -> says 0 y ty -> says 0 e te -> (b = true -> apart ts) -> suite b o s ts ->
    states b o (CDo i x y (Some e) s) ((DO, v) :: (ID, i) :: (LIT 61, w) :: tx ++ (LIT 44, z) :: ty ++ (LIT 44, z') :: te ++ ts)
| S_loop a c i op x s v w o tt ts : loop_tail i op x tt -> suite b o s ts ->
    states b o (CLoop a c i op x s) ((LOOP, v) :: (ID, a) :: (AS, w) :: (ID, c) :: tt ++ ts)
| S_with a c s v w n o ts : newlines n -> suite b o s ts -> states b o (CWith a c s) ((WITH, v) :: (ID, a) :: (AS, w) :: (ID, c) :: n ++ ts)
| S_repeat s v o ts : suite b o s ts -> states b o (CRepeat s) ((REPEAT, v) :: ts)
| S_func f args s v v1 v2 o ta ts : args_say args ta -> suite b o s ts ->
    states b o (CFunc f args s) ((FUNCTION, v) :: (ID, f) :: (OPEN_PAREN, v1) :: ta ++ (CLOSE_PAREN, v2) :: ts)

(** What follows the first part of an "if"; the part before it ends with [p]. *)
with tail_says (b : bool) : bool -> list (cx * list cs) -> option (list cs) -> bool -> row -> Prop :=
| T_none p : tail_says b p [] None true []
| T_else p s v o ts : (b = true -> p = false) -> suite b o s ts -> tail_says b p [] (Some s) o ((ELSE, v) :: ts)
| T_elif p c s l els v v1 v2 n o1 o tc ts tt : (b = true -> p = false) -> says 0 c tc -> newlines n -> suite b o1 s ts -> tail_says b o1 l els o tt ->
    tail_says b p ((c, s) :: l) els o ((ELSEIF, v) :: (OPEN_PAREN, v1) :: tc ++ (CLOSE_PAREN, v2) :: n ++ ts ++ tt)

(** One statement, or several in braces. *)
with suite (b : bool) : bool -> list cs -> row -> Prop :=
| U_one c o ts : states b o c ts -> suite b o [c] ts
| U_block l v w n1 n2 ts : newlines n1 -> newlines n2 -> all_state b l ts -> suite b false l ((LIT 123, v) :: n1 ++ ts ++ (LIT 125, w) :: n2)

with all_state (b : bool) : list cs -> row -> Prop :=
| A_one c o ts : states b o c ts -> all_state b [c] ts
| A_more c o l tc ts : states b o c tc -> all_state b l ts -> all_state b (c :: l) (tc ++ ts).

Scheme states_ind2 := Minimality for states Sort Prop
with tail_ind2 := Minimality for tail_says Sort Prop
with suite_ind2 := Minimality for suite Sort Prop
with all_ind2 := Minimality for all_state Sort Prop.
Combined Scheme states_mut from states_ind2, tail_ind2, suite_ind2, all_ind2.

(** A method: statements, perhaps after newlines. *)
Definition method_says (b : bool) (l : list cs) (ts : row) : Prop := exists n t, newlines n /\ all_state b l t /\ ts = n ++ t.
