(** How python reads an expression (the Python 3 reference, 2.3-2.6 and 6.2-6.15), on
    the part of the language that a translated method can use, and what python
    expression each dREL expression stands for (dREL paper, and the comments of
    src/drel/py_from_ast.nw).  Written without the translator. *)
From Coq Require Import String Ascii List NArith Bool.
From Verif Require Import PyBase DrelModel.
Import ListNotations.
Open Scope list_scope.
Open Scope nat_scope.

(** ** Characters *)
Definition is_digit (c : N) : bool := (N.leb 48 c && N.leb c 57)%bool.
Definition is_letter (c : N) : bool := ((N.leb 65 c && N.leb c 90) || (N.leb 97 c && N.leb c 122))%bool.
Definition is_word (c : N) : bool := (is_letter c || is_digit c || N.eqb c 95)%bool.
Definition is_quote (c : N) : bool := (N.eqb c 34 || N.eqb c 39)%bool.
Definition is_exp (c : N) : bool := (N.eqb c 101 || N.eqb c 69)%bool.
Definition is_sign (c : N) : bool := (N.eqb c 43 || N.eqb c 45)%bool.

(** ** Tokens.  One step of the reader per character. *)
Inductive tok :=
| TName (s : str)
| TNum (s : str)
| TStr (s : str)           (* as written, with its quotes *)
| TOp (s : str)
| TBad.                    (* a character with no meaning, or a text that never ends *)
Inductive lstate :=
| LIdle
| LName (acc : str)
| LNum (acc : str)
| LDot
| LOp (c : N)              (* an operator that may have a second character *)
| LQ1 (q : N)              (* one quote seen *)
| LQ2 (q : N)              (* two: the empty text, or the start of a long one *)
| LS (q : N) (acc : str)   (* in a short text *)
| LSe (q : N) (acc : str)  (* after a backslash *)
| LT (q : N) (k : nat) (acc : str)   (* in a long text, after k quotes *)
| LTe (q : N) (acc : str).
Definition twochar (a b : N) : bool :=
  existsb (str_eqb [a; b]) [u "**"; u "<="; u ">="; u "=="; u "!="].
Definition idle (c : N) : list tok * lstate :=
  if N.eqb c 32 then ([], LIdle)
  else if is_letter c || N.eqb c 95 then ([], LName [c])
  else if is_digit c then ([], LNum [c])
  else if N.eqb c 46 then ([], LDot)
  else if is_quote c then ([], LQ1 c)
  else if cmem c (u "*<>=!") then ([], LOp c)
  else if cmem c (u "()[]{},:+-/&|") then ([TOp [c]], LIdle)
  else ([TBad], LIdle).
Definition and_then (t : tok) (x : list tok * lstate) : list tok * lstate := (t :: fst x, snd x).
Definition more_number (acc : str) (c : N) : bool :=
  is_word c || N.eqb c 46 || (is_sign c && is_exp (last acc 0%N)).
Definition lstep (st : lstate) (c : N) : list tok * lstate :=
  match st with
  | LIdle => idle c
  | LName acc => if is_word c then ([], LName (acc ++ [c]))
                 else if is_quote c then ([TBad], LQ1 c)       (* prefixed texts: not read *)
                 else and_then (TName acc) (idle c)
  | LNum acc => if more_number acc c then ([], LNum (acc ++ [c])) else and_then (TNum acc) (idle c)
  | LDot => if is_digit c then ([], LNum [46%N; c]) else and_then (TOp [46%N]) (idle c)
  | LOp o => if twochar o c then ([TOp [o; c]], LIdle)
             else and_then (if N.eqb o 33 then TBad else TOp [o]) (idle c)
  | LQ1 q => if N.eqb c q then ([], LQ2 q)
             else if N.eqb c 92 then ([], LSe q [q; c])
             else if N.eqb c 10 then ([TBad], LIdle) else ([], LS q [q; c])
  | LQ2 q => if N.eqb c q then ([], LT q 0 [q; q; q]) else and_then (TStr [q; q]) (idle c)
  | LS q acc => if N.eqb c q then ([TStr (acc ++ [c])], LIdle)
                else if N.eqb c 92 then ([], LSe q (acc ++ [c]))
                else if N.eqb c 10 then ([TBad], LIdle) else ([], LS q (acc ++ [c]))
  | LSe q acc => ([], LS q (acc ++ [c]))
  | LT q k acc =>
      if N.eqb c q then
        match k with
        | 2 => ([TStr (acc ++ [c])], LIdle)
        | _ => ([], LT q (S k) (acc ++ [c]))
        end
      else if N.eqb c 92 then ([], LTe q (acc ++ [c])) else ([], LT q 0 (acc ++ [c]))
  | LTe q acc => ([], LT q 0 (acc ++ [c]))
  end.
Definition lend (st : lstate) : list tok :=
  match st with
  | LIdle => []
  | LName acc => [TName acc]
  | LNum acc => [TNum acc]
  | LDot => [TOp [46%N]]
  | LOp c => [if N.eqb c 33 then TBad else TOp [c]]
  | LQ2 q => [TStr [q; q]]
  | _ => [TBad]
  end.
Fixpoint lex (st : lstate) (s : str) : list tok :=
  match s with
  | [] => lend st
  | c :: r => let x := lstep st c in fst x ++ lex (snd x) r
  end.
Definition tokens (s : str) : list tok := lex LIdle s.

(** ** Numbers (2.4.5, 2.4.6): no leading zero in a decimal integer *)
Fixpoint span (p : N -> bool) (s : str) : str * str :=
  match s with
  | [] => ([], [])
  | c :: r => if p c then let x := span p r in (c :: fst x, snd x) else ([], s)
  end.
Definition nonempty (s : str) : bool := match s with [] => false | _ => true end.
Definition no_leading_zero (s : str) : bool :=
  match s with 48%N :: r => forallb (N.eqb 48) r | _ => true end.
(* the part after the digits and point: exponent, j; and whether there is any *)
Definition num_tail (s : str) : option bool :=
  match s with
  | [] => Some false
  | c :: r =>
      if is_exp c then
        let r1 := match r with d :: r' => if is_sign d then r' else r | [] => r end in
        let x := span is_digit r1 in
        if nonempty (fst x) then
          match snd x with
          | [] => Some true
          | [j] => if (N.eqb j 106 || N.eqb j 74)%bool then Some true else None
          | _ => None
          end
        else None
      else if (N.eqb c 106 || N.eqb c 74)%bool then match r with [] => Some true | _ => None end
      else None
  end.
Definition py_number (s : str) : bool :=
  let x := span is_digit s in
  if N.eqb (hd 0%N (snd x)) 46 then
    let y := span is_digit (tail (snd x)) in
    (nonempty (fst x) || nonempty (fst y)) && match num_tail (snd y) with Some _ => true | None => false end
  else
    nonempty (fst x) &&
    match num_tail (snd x) with Some true => true | Some false => no_leading_zero (fst x) | None => false end.

(** ** Expressions *)
Definition keywords : list str :=
  [u "and"; u "as"; u "assert"; u "async"; u "await"; u "break"; u "class"; u "continue"; u "def"; u "del"; u "elif";
   u "else"; u "except"; u "finally"; u "for"; u "from"; u "global"; u "if"; u "import"; u "in"; u "is"; u "lambda";
   u "nonlocal"; u "not"; u "or"; u "pass"; u "raise"; u "return"; u "try"; u "while"; u "with"; u "yield"].
Definition keyword (s : str) : bool := existsb (str_eqb s) keywords.

Inductive py :=
| PName (s : str)
| PNum (s : str)
| PStr (s : str)
| PTuple (l : list py)
| PList (l : list py)
| PDict (l : list py)                   (* keys and values in turn *)
| PAttr (p : py) (s : str)
| PCall (f : py) (l : list py)
| PSub (p : py) (l : list py)
| PSlice (a b c : option py)            (* only among the items of PSub *)
| PBin (op : str) (a b : py)
| PCmp (a : py) (l : list (str * py))   (* a chain: a < b < c is one PCmp *)
| PNot (a : py)
| PNeg (op : str) (a : py).

(** How tightly an operator binds (6.17, from the loosest): or 0, and 1, not 2,
    comparisons 3, "|" 4, "&" 5, "+ -" 6, "* /" 7, sign 8, "**" 9, trailers 10. *)
Definition is_ops (s : str) (t : tok) : bool := match t with TOp o => str_eqb o s | _ => false end.
Definition is_op (s : string) (t : tok) : bool := is_ops (u s) t.
Definition is_kw (s : string) (t : tok) : bool := match t with TName o => str_eqb o (u s) | _ => false end.
Definition binop (k : nat) (t : tok) : option str :=
  match k with
  | 0 => if is_kw "or" t then Some (u "or") else None
  | 1 => if is_kw "and" t then Some (u "and") else None
  | 4 => if is_op "|" t then Some (u "|") else None
  | 5 => if is_op "&" t then Some (u "&") else None
  | 6 => if is_op "+" t then Some (u "+") else if is_op "-" t then Some (u "-") else None
  | 7 => if is_op "*" t then Some (u "*") else if is_op "/" t then Some (u "/") else None
  | _ => None
  end.
Definition cmpop (ts : list tok) : option (str * list tok) :=
  match ts with
  | TOp o :: r => if existsb (str_eqb o) [u "<"; u ">"; u "<="; u ">="; u "=="; u "!="] then Some (o, r) else None
  | TName a :: r =>
      if str_eqb a (u "in") then Some (u "in", r)
      else if str_eqb a (u "not") then
        match r with
        | TName b :: r' => if str_eqb b (u "in") then Some (u "not in", r') else None
        | _ => None
        end
      else None
  | _ => None
  end.

Inductive goal :=
| GE (k : nat)                               (* an expression at level k *)
| GL (k : nat) (t : py)                      (* the rest at level k, after t *)
| GC (t : py) (chain : list (str * py))      (* the rest of a comparison *)
| GSeq (close : str) (acc : list py)         (* expressions up to a bracket *)
| GDict (acc : list py)
| GItems (acc : list py).                    (* subscripts up to "]" *)
Definition answer := option (list py * list tok).
Definition one (x : answer) (f : py -> list tok -> answer) : answer :=
  match x with Some ([t], r) => f t r | _ => None end.
Definition seq (x : answer) (f : list py -> list tok -> answer) : answer :=
  match x with Some (l, r) => f l r | None => None end.

(** One expression or none, before ":" "," or "]". *)
Definition stops (t : tok) : bool := is_op ":" t || is_op "," t || is_op "]" t.
Definition maybe (rd : goal -> list tok -> answer) (ts : list tok) (f : option py -> list tok -> answer) : answer :=
  match ts with
  | t :: _ => if stops t then f None ts else one (rd (GE 0) ts) (fun x r => f (Some x) r)
  | [] => None
  end.
(** One subscript: an expression, or a slice (6.3.3). *)
Definition item (rd : goal -> list tok -> answer) (ts : list tok) (f : py -> list tok -> answer) : answer :=
  maybe rd ts (fun a r =>
    match r with
    | t :: r1 =>
        if is_op ":" t then
          maybe rd r1 (fun b r2 =>
            match r2 with
            | t2 :: r3 => if is_op ":" t2 then maybe rd r3 (fun c r4 => f (PSlice a b c) r4) else f (PSlice a b None) r2
            | [] => None
            end)
        else match a with Some x => f x r | None => None end
    | [] => None
    end).

Definition step (rec : goal -> list tok -> answer) (g : goal) (ts : list tok) : answer :=
  match g with
  | GE k =>
      match k, ts with
      | 2, TName w :: r =>
          if str_eqb w (u "not") then one (rec (GE 2) r) (fun t r' => Some ([PNot t], r'))
          else one (rec (GE 3) ts) (fun t r' => rec (GL 2 t) r')
      | 8, TOp o :: r =>
          if str_eqb o (u "-") || str_eqb o (u "+") then one (rec (GE 8) r) (fun t r' => Some ([PNeg o t], r'))
          else one (rec (GE 9) ts) (fun t r' => rec (GL 8 t) r')
      | 10, TName w :: r => if keyword w then None else rec (GL 10 (PName w)) r
      | 10, TNum w :: r => if py_number w then rec (GL 10 (PNum w)) r else None
      | 10, TStr w :: r => rec (GL 10 (PStr w)) r
      | 10, t :: r =>
          if is_op "(" t then
            match r with
            | t2 :: r2 =>
                if is_op ")" t2 then rec (GL 10 (PTuple [])) r2
                else one (rec (GE 0) r) (fun x r3 =>
                  match r3 with
                  | t4 :: r4 =>
                      if is_op ")" t4 then rec (GL 10 x) r4
                      else if is_op "," t4 then seq (rec (GSeq (u ")") [x]) r4) (fun l r5 => rec (GL 10 (PTuple l)) r5)
                      else None
                  | [] => None
                  end)
            | [] => None
            end
          else if is_op "[" t then seq (rec (GSeq (u "]") []) r) (fun l r2 => rec (GL 10 (PList l)) r2)
          else if is_op "{" t then seq (rec (GDict []) r) (fun l r2 => rec (GL 10 (PDict l)) r2)
          else None
      | 10, [] => None
      | _, _ => if Nat.ltb 10 k then None else one (rec (GE (S k)) ts) (fun t r => rec (GL k t) r)
      end
  | GL k t =>
      match k with
      | 3 => rec (GC t []) ts
      | 9 => match ts with
             | o :: r => if is_op "**" o then one (rec (GE 8) r) (fun t2 r2 => Some ([PBin (u "**") t t2], r2)) else Some ([t], ts)
             | [] => Some ([t], ts)
             end
      | 10 => match ts with
              | o :: r =>
                  if is_op "." o then
                    match r with
                    | TName a :: r2 => if keyword a then None else rec (GL 10 (PAttr t a)) r2
                    | _ => None
                    end
                  else if is_op "(" o then seq (rec (GSeq (u ")") []) r) (fun l r2 => rec (GL 10 (PCall t l)) r2)
                  else if is_op "[" o then
                    seq (rec (GItems []) r) (fun l r2 => match l with [] => None | _ => rec (GL 10 (PSub t l)) r2 end)
                  else Some ([t], ts)
              | [] => Some ([t], ts)
              end
      | _ => match ts with
             | o :: r => match binop k o with
                         | Some op => one (rec (GE (S k)) r) (fun t2 r2 => rec (GL k (PBin op t t2)) r2)
                         | None => Some ([t], ts)
                         end
             | [] => Some ([t], ts)
             end
      end
  | GC t chain =>
      match cmpop ts with
      | Some (op, r) => one (rec (GE 4) r) (fun t2 r2 => rec (GC t (chain ++ [(op, t2)])) r2)
      | None => Some ([match chain with [] => t | _ => PCmp t chain end], ts)
      end
  | GSeq close acc =>
      match ts with
      | t :: r =>
          if is_ops close t then Some (acc, r)
          else one (rec (GE 0) ts) (fun x r1 =>
            match r1 with
            | t2 :: r2 =>
                if is_op "," t2 then rec (GSeq close (acc ++ [x])) r2
                else if is_ops close t2 then Some (acc ++ [x], r2) else None
            | [] => None
            end)
      | [] => None
      end
  | GDict acc =>
      match ts with
      | t :: r =>
          if is_op "}" t then Some (acc, r)
          else one (rec (GE 0) ts) (fun x r1 =>
            match r1 with
            | t1 :: r1' =>
                if is_op ":" t1 then one (rec (GE 0) r1') (fun y r2 =>
                  match r2 with
                  | t2 :: r2' =>
                      if is_op "," t2 then rec (GDict (acc ++ [x; y])) r2'
                      else if is_op "}" t2 then Some (acc ++ [x; y], r2') else None
                  | [] => None
                  end)
                else None
            | [] => None
            end)
      | [] => None
      end
  | GItems acc =>
      match ts with
      | t :: r =>
          if is_op "]" t then Some (acc, r)
          else item rec ts (fun x r1 =>
            match r1 with
            | t2 :: r2 =>
                if is_op "," t2 then rec (GItems (acc ++ [x])) r2
                else if is_op "]" t2 then Some (acc ++ [x], r2) else None
            | [] => None
            end)
      | [] => None
      end
  end.
Fixpoint rd (n : nat) (g : goal) (ts : list tok) {struct n} : answer :=
  match n with 0 => None | S n => step (rd n) g ts end.

(** The text [s] is the expression [t]. *)
Definition reads (g : goal) (ts : list tok) (r : list py * list tok) : Prop := exists n, rd n g ts = Some r.
Definition Reads (s : str) (t : py) : Prop := reads (GE 0) (tokens s) ([t], []).
Definition read_expr (s : str) : option py :=
  match rd (20 + 20 * length s) (GE 0) (tokens s) with Some ([t], []) => Some t | _ => None end.

(** ** dREL expressions *)
(** The strata of the grammar (drel_ast_yacc.py 118-216): or_test 0, and_test 1,
    not_test 2, comparison 3, a_expr 4, m_expr 5, u_expr 6, power 7, primary 8. *)
Definition comparisons : list str := [u "<"; u ">"; u "<="; u ">="; u "=="; u "!="; u "in"; u "not in"].
Definition stratum (op : str) : option nat :=
  if str_eqb op (u "or") then Some 0
  else if str_eqb op (u "and") then Some 1
  else if existsb (str_eqb op) comparisons then Some 3
  else if existsb (str_eqb op) [u "+"; u "-"] then Some 4
  else if existsb (str_eqb op) [u "*"; u "/"; u "^"; u "&"; u "|"] then Some 5
  else if str_eqb op (u "**") then Some 7
  else None.
Definition level (c : cx) : nat :=
  match c with
  | XBin op _ _ => match stratum op with Some k => k | None => 0 end
  | XNot _ => 2
  | XSign _ _ => 6
  | _ => 8
  end.
(** The operands that the grammar allows on the left and on the right. *)
Definition operands (op : str) (l r : nat) : bool :=
  match stratum op with
  | Some 3 => Nat.leb 4 l && Nat.leb 4 r
  | Some 7 => Nat.leb 8 l && Nat.leb 6 r
  | Some k => Nat.leb k l && Nat.ltb k r
  | None => false
  end.
Definition identifier (s : str) : bool :=
  match s with c :: r => is_letter c && forallb is_word r && negb (keyword s) | [] => false end.
(** 'text' or "text" in one line without backslashes. *)
Definition short_text (s : str) : bool :=
  match s with
  | q :: r => is_quote q && forallb (fun c => negb (N.eqb c q || N.eqb c 92 || N.eqb c 10)) (removelast r) && N.eqb (last r 0%N) q
              && negb (match r with [] => true | _ => false end)
  | [] => false
  end.
Definition literal (s : str) : bool := py_number s || short_text s.

(** Sentences of the grammar with python names and literals; [&] not above [|]
    (python gives the two another order: see the refutation), calls of functions with
    the number of arguments that they have, slices with their first element, subscripts
    that are not slices among several. *)
Definition arity (f : str) (n : nat) : bool :=
  let is l := existsb (str_eqb (lower f)) l in
  if is [u "sind"; u "cosd"; u "tand"; u "upper"; u "transpose"; u "expimag"; u "real"; u "imag"] then Nat.eqb n 1
  else if is [u "sort"; u "current_row"] then false
  else true.
Definition top_or (c : cx) : bool := match c with XBin op _ _ => str_eqb op (u "|") | _ => false end.
Definition attribute_name (s : str) : bool := nonempty s && forallb is_word s.
Definition ahead (a b : bool) : bool := implb b a.     (* when the second is given so is the first *)
Definition given {A} (o : option A) : bool := match o with Some _ => true | None => false end.
(** The meaning of functions and operators. *)
Definition dotted (root : string) (path : list string) : py :=
  fold_left (fun p a => PAttr p (u a)) path (PName (u root)).
Definition simple_functions : list (str * py) :=
  [(u "table", dotted "dict" []); (u "list", dotted "list" []); (u "array", dotted "numpy" ["array"%string]);
   (u "len", dotted "len" []); (u "abs", dotted "abs" []); (u "magn", dotted "abs" []); (u "atoi", dotted "int" []);
   (u "float", dotted "float" []); (u "str", dotted "str" []); (u "norm", dotted "numpy" ["linalg"%string; "norm"%string]);
   (u "sqrt", dotted "math" ["sqrt"%string]); (u "exp", dotted "math" ["exp"%string]); (u "complex", dotted "complex" []);
   (u "max", dotted "max" []); (u "min", dotted "min" []);
   (u "strip", dotted "drel_runtime" ["drel_strip"%string]); (u "int", dotted "drel_runtime" ["drel_int"%string]);
   (u "eigen", dotted "drel_runtime" ["drel_eigen"%string]); (u "hash", dotted "hash" [])].
Definition math (f : string) (l : list py) : py := PCall (dotted "math" [f]) l.
Definition call_meaning (f : str) (l : list py) : py :=
  let is s := str_eqb (lower f) (u s) in
  match dget str_eqb (lower f) simple_functions with
  | Some g => if is "list"%string && Nat.ltb 1 (length l) then PCall g [PList l] else PCall g l
  | None =>
      match l with
      | [x] =>
          if is "sind"%string then math "sin" [math "radians" [x]]
          else if is "cosd"%string then math "cos" [math "radians" [x]]
          else if is "tand"%string then math "tan" [math "radians" [x]]
          else if is "upper"%string then PCall (PAttr x (u "upper")) []
          else if is "transpose"%string then PAttr x (u "T")
          else if is "real"%string then PAttr x (u "real")
          else if is "imag"%string then PAttr x (u "imag")
          else if is "expimag"%string then PCall (dotted "cmath" ["exp"%string]) [PBin (u "*") (PNum (u "1j")) x]
          else if is "asind"%string then math "degrees" [math "asin" l]
          else if is "acosd"%string then math "degrees" [math "acos" l]
          else if is "atand"%string then math "degrees" [math "atan" l]
          else if is "atan2d"%string then math "degrees" [math "atan2" l]
          else if is "mod"%string then PSub (PCall (PName (u "divmod")) l) [PNum (u "1")]
          else if is "matrix"%string then PCall (PAttr (PCall (dotted "numpy" ["matrix"%string]) l) (u "astype")) [PStr (u "'float64'")]
          else PCall (PName f) (l ++ [PName (u "ciffile")])
      | _ =>
          if is "asind"%string then math "degrees" [math "asin" l]
          else if is "acosd"%string then math "degrees" [math "acos" l]
          else if is "atand"%string then math "degrees" [math "atan" l]
          else if is "atan2d"%string then math "degrees" [math "atan2" l]
          else if is "mod"%string then PSub (PCall (PName (u "divmod")) l) [PNum (u "1")]
          else if is "matrix"%string then PCall (PAttr (PCall (dotted "numpy" ["matrix"%string]) l) (u "astype")) [PStr (u "'float64'")]
          else PCall (PName f) (l ++ [PName (u "ciffile")])
      end
  end.
Definition bin_meaning (op : str) (a b : py) : py :=
  let is s := str_eqb op (u s) in
  if is "+"%string then PCall (dotted "drel_runtime" ["drel_add"%string]) [a; b]
  else if is "-"%string then PCall (dotted "numpy" ["subtract"%string]) [a; b]
  else if is "*"%string then PCall (dotted "drel_runtime" ["drel_dot"%string]) [a; b]
  else if is "/"%string then PCall (dotted "numpy" ["true_divide"%string]) [a; b]
  else if is "^"%string then PCall (dotted "numpy" ["cross"%string]) [a; b]
  else if existsb (str_eqb op) comparisons then PCmp a [(op, b)]
  else PBin op a b.
(** ** Data items in expressions *)
Section Items.
Context (e : env) (ids : list (str * (str * str * bool))).
(** pi and twopi are constants, whatever else they may name. *)
Definition constant (s : str) : bool := str_eqb (lower s) (u "pi") || str_eqb (lower s) (u "twopi").
Definition head_name (p : cx) : option str :=
  match p with XTag a => Some a | XName a => if constant a then None else Some a | _ => None end.
(** How the value of a data name is reached: it is what the method calculates, the value in
    the data file, the value at a row of a loop, or the value in the current row of the
    category of the method, which is passed to the function that is made. *)
Inductive reach := Target | Whole (quote : N) | Row (index : str) | Current.
(** [p.att] where p is an alias, or a category's tag such as _cell: the data name. *)
Definition item_of (p : cx) (att : str) : option (str * reach) :=
  let at_target nm := match e_target e with Some t => str_eqb nm (lower t) | None => false end in
  let named o r := match o with Ret nm => Some (lower nm, if at_target (lower nm) then Target else r) | Raise _ => None end in
  match head_name p with
  | None => None
  | Some a =>
      match dget str_eqb a ids, p with
      | Some (cat, index, looping), _ =>
          named (e_name e (lower cat) (lower att))
                (match index with [] => Whole 34 | _ => if looping then Row index else Current end)
      | None, XTag _ => if N.eqb (hd 0%N a) 95 then named (e_name e a att) (Whole 39) else None
      | None, _ => None
      end
  end.
(** [p[key]] where p is an alias, a loop category or its tag: the category. *)
Definition category_of (p : cx) : option str :=
  match head_name p with
  | None => None
  | Some a =>
      match p with
      | XTag _ => Some (tail a)
      | _ => match dget str_eqb a ids with
             | Some (cat, _, _) => Some cat
             | None => if dmem str_eqb a (e_loopable e) then Some a else None
             end
      end
  end.
Definition known (cat att : str) : str := match e_name e cat att with Ret nm => nm | Raise _ => att end.
Definition resolves (cat att : str) : bool := match e_name e cat att with Ret _ => true | Raise _ => false end.
(** Texts that may stand between quotes, and names of python. *)
Definition quotable (s : str) : bool := forallb (fun c => negb (N.eqb c 39 || N.eqb c 34 || N.eqb c 92 || N.eqb c 10)) s.
Definition py_name (s : str) : bool :=
  match s with c :: r => (is_letter c || N.eqb c 95) && forallb is_word r && negb (keyword s) | [] => false end.
Definition reachable (nr : str * reach) : bool :=
  match e_target e with
  | None => false
  | Some _ => quotable (fst nr) && match snd nr with Row i => py_name i | _ => true end
  end.
Fixpoint sentence (c : cx) : bool :=
  match c with
  | XName s => identifier s
  | XTag s => false
  | XLit s => literal s
  | XGroup l => negb (Nat.eqb (length l) 0) && forallb sentence l
  | XConv l => negb (Nat.eqb (length l) 0) && forallb sentence l
  | XList l => forallb sentence l
  | XTable l => forallb (fun ke => short_text (fst ke) && sentence (snd ke)) l
  | XAttr p s =>
      match item_of p s with
      | Some nr => reachable nr
      | None =>
          let plain := Nat.leb 8 (level p) && attribute_name s && sentence p in
          match p with
          | XSub q key =>
              match category_of q with
              | Some cat => nonempty cat && quotable cat && dmem str_eqb cat (e_loopable e) && resolves cat s && quotable (known cat s) && sentence key
              | None => plain
              end
          | _ => plain
          end
      end
  | XSub p x => match category_of p with Some _ => false | None => Nat.leb 8 (level p) && sentence p && sentence x end
  | XRange p a b c =>
      let ok o := match o with Some e => sentence e | None => true end in
      Nat.leb 8 (level p) && sentence p && given a && ahead (given b) (given c) && ok a && ok b && ok c
  | XSlices p l => Nat.leb 8 (level p) && sentence p && negb (Nat.eqb (length l) 0) && forallb plain_item l
  | XCall f l => identifier f && arity f (length l) && forallb sentence l
  | XBin op a b => operands op (level a) (level b) && negb (str_eqb op (u "&") && top_or a) && sentence a && sentence b
  | XNot a => Nat.leb 2 (level a) && sentence a
  | XSign op a => (str_eqb op (u "-") || str_eqb op (u "+")) && Nat.leb 6 (level a) && sentence a
  end
with plain_item (i : citem) : bool := match i with IExpr e => sentence e | IRange _ _ _ => false end.

(** Their meaning; [var] gives the variables of the values in the current row. *)
Section Meaning.
Context (var : str -> str).
Definition value (name : str) (r : reach) : py :=
  match r with
  | Target => PName (u "__dreltarget")
  | Whole q => PSub (PName (u "ciffile")) [PStr ([q] ++ name ++ [q])]
  | Row i => PSub (PSub (PName (u "ciffile")) [PStr (dquote name)]) [PName i]
  | Current => PName (var name)
  end.
Definition packet (cat : str) (key : py) : py := PCall (PAttr (PName (u "ciffile")) (u "GetKeyedSemanticPacket")) [key; PStr (squote cat)].
Fixpoint mean (c : cx) : py :=
  match c with
  | XName s =>
      if str_eqb (lower s) (u "pi") then dotted "math" ["pi"%string]
      else if str_eqb (lower s) (u "twopi") then PBin (u "*") (PNum (u "2.0")) (dotted "math" ["pi"%string])
      else PName s
  | XTag s => PName s
  | XLit s => match s with q :: _ => if is_quote q then PStr s else PNum s | [] => PNum s end
  | XGroup [e] => mean e
  | XGroup l => PTuple (map mean l)
  | XConv l => PCall (PName (u "str")) (map mean l)
  | XList l => PCall (PName (u "StarList")) [PList (map mean l)]
  | XTable [] => PCall (PName (u "StarTable")) [PDict []]
  | XTable l => PDict (flat_map (fun ke => [PStr (fst ke); mean (snd ke)]) l)
  | XAttr p s =>
      match item_of p s with
      | Some (name, r) => value name r
      | None =>
          let plain := PCall (PName (u "getattr")) [mean p; PStr (squote s)] in
          match p with
          | XSub q key =>
              match category_of q with
              | Some cat => PCall (PName (u "getattr")) [packet cat (mean key); PStr (squote (known cat s))]
              | None => plain
              end
          | _ => plain
          end
      end
  | XSub p e => PSub (mean p) [mean e]
  | XRange p a b c => PSub (mean p) [PSlice (option_map mean a) (option_map mean b) (option_map mean c)]
  | XSlices p l => PSub (mean p) (map mean_item l)
  | XCall f l => call_meaning f (map mean l)
  | XBin op a b => bin_meaning op (mean a) (mean b)
  | XNot a => PNot (mean a)
  | XSign op a => PCall (dotted "drel_runtime" ["drel_dot"%string]) [PNeg op (PNum (u "1")); mean a]
  end
with mean_item (i : citem) : py :=
  match i with
  | IExpr e => mean e
  | IRange a b c => PSlice (option_map mean a) (option_map mean b) (option_map mean c)
  end.

End Meaning.

(** The plain names occurring in an expression, and whether it has a list. *)
Fixpoint names (c : cx) : list str :=
  match c with
  | XName s => [s]
  | XTag _ | XLit _ => []
  | XGroup l | XConv l | XList l | XCall _ l => flat_map names l
  | XTable l => flat_map (fun ke => names (snd ke)) l
  | XAttr p s =>
      match item_of p s, p with
      | Some _, _ => []
      | None, XSub q key => match category_of q with Some _ => names key | None => names p end
      | None, _ => names p
      end
  | XSub p e => names p ++ names e
  | XRange p a b c => let of o := match o with Some e => names e | None => [] end in names p ++ of a ++ of b ++ of c
  | XSlices p l => names p ++ flat_map item_names l
  | XBin _ a b => names a ++ names b
  | XNot a | XSign _ a => names a
  end
with item_names (i : citem) : list str :=
  match i with
  | IExpr e => names e
  | IRange a b c => let of o := match o with Some e => names e | None => [] end in of a ++ of b ++ of c
  end.

(** The data names that the value depends on, and whether the value in the current row is used. *)
Definition keys_of (cat : str) : list str :=
  match dget str_eqb cat (e_loopable e) with
  | Some keys => map (fun k => lower (u "_" ++ cat ++ u "." ++ k)) keys
  | None => []
  end.
Definition use_of (nr : str * reach) : list (str * bool) :=
  match snd nr with Target => [] | Current => [(fst nr, true)] | _ => [(fst nr, false)] end.
Fixpoint needs (c : cx) : list (str * bool) :=
  match c with
  | XName _ | XTag _ | XLit _ => []
  | XGroup l | XConv l | XList l | XCall _ l => flat_map needs l
  | XTable l => flat_map (fun ke => needs (snd ke)) l
  | XAttr p s =>
      match item_of p s, p with
      | Some nr, _ => use_of nr
      | None, XSub q key =>
          match category_of q with
          | Some cat => map (fun k => (k, false)) (keys_of cat) ++ needs key ++ [(known cat s, false)]
          | None => needs p
          end
      | None, _ => needs p
      end
  | XSub p x => needs p ++ needs x
  | XRange p a b c => let of o := match o with Some x => needs x | None => [] end in needs p ++ of a ++ of b ++ of c
  | XSlices p l => needs p ++ flat_map item_needs l
  | XBin _ a b => needs a ++ needs b
  | XNot a | XSign _ a => needs a
  end
with item_needs (i : citem) : list (str * bool) :=
  match i with
  | IExpr x => needs x
  | IRange a b c => let of o := match o with Some x => needs x | None => [] end in of a ++ of b ++ of c
  end.
End Items.

Fixpoint lists (c : cx) : bool :=
  match c with
  | XName _ | XTag _ | XLit _ => false
  | XList [] => false
  | XList _ => true
  | XGroup l | XConv l | XCall _ l => existsb lists l
  | XTable l => existsb (fun ke => lists (snd ke)) l
  | XAttr p _ => lists p
  | XSub p e => lists p || lists e
  | XRange p a b c => let of o := match o with Some e => lists e | None => false end in lists p || of a || of b || of c
  | XSlices p l => lists p || existsb item_lists l
  | XBin _ a b => lists a || lists b
  | XNot a | XSign _ a => lists a
  end
with item_lists (i : citem) : bool :=
  match i with
  | IExpr e => lists e
  | IRange a b c => let of o := match o with Some e => lists e | None => false end in of a || of b || of c
  end.

(** The table of the values in the current row: the variables __w0, __w1, .. in order. *)
Definition numbered (w : list (str * (str * nat * bool))) : Prop :=
  NoDup (map fst w) /\
  forall i n v k o, nth_error w i = Some (n, (v, k, o)) -> k = i /\ v = u "__w" ++ dec i.
Definition variable (w : list (str * (str * nat * bool))) (n : str) : str :=
  match dget str_eqb n w with Some (v, _, _) => v | None => [] end.

(** No plain name is an alias, a category or the variable of a packet; an alias is a name, or
    a category's tag (as for the category of the method itself); no packet was just fetched. *)
Record calm (e : env) (st : sp) (used : list str) : Prop := Calm {
  c_ids : forall k v, In (k, v) (s_ids st) -> (identifier k = true /\ ~ In k used) \/ (exists r, k = 95%N :: r /\ hd 0%N r <> 95%N);
  c_cats : forall k v, In (k, v) (e_loopable e) -> identifier k = true /\ ~ In k used;
  c_packets : forall k v, In (k, v) (s_packets st) -> identifier k = true /\ ~ In k used;
  c_sub : s_sub st = [];
  c_with : numbered (s_with st)
}.
(** What translating an expression changes: the data names [d] are depended upon, and those of
    the current row have variables; variables given before are kept. *)
Record grows (st st2 : sp) (d : list (str * bool)) : Prop := Grows {
  g_ids : s_ids st2 = s_ids st;
  g_packets : s_packets st2 = s_packets st;
  g_sub : s_sub st2 = s_sub st;
  g_rhs : s_rhs st2 = s_rhs st;
  g_inif : s_inif st2 = s_inif st;
  g_row : s_row st2 = s_row st;
  g_deps : forall x, In x (s_deps st2) <-> In x (s_deps st) \/ In x (map fst d);
  g_keep : forall n v, In (n, v) (s_with st) -> In (n, v) (s_with st2);
  g_vars : forall n, In n (map fst (s_with st2)) <-> In n (map fst (s_with st)) \/ In (n, true) d;
  g_with : numbered (s_with st) -> numbered (s_with st2)
}.
