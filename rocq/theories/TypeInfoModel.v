(** Model of CifDic.add_type_info with regex_fiddle (src/CifFile_module.nw 2719-2744)
    and of the part of python's [re.compile] that the expressions of DDL2
    dictionaries use.  No proofs here. *)
From Coq Require Import String Ascii List NArith ZArith Bool.
From Verif Require Import PyBase StarBlockModel RegexModel.
Import ListNotations.

(** [re.match("((a)(b)(c))",s)] with the groups a and c. *)
Definition re_match3 (a b c : re) (s : str) : option (str * str) :=
  hd_error (flat_map (fun g => flat_map (fun m => map (fun t => (fst g, fst t)) (rmatch c (snd m))) (rmatch b (snd g))) (rmatch a s)).

(** The three groups of brack_match and ret_match, 2727-2728. *)
Definition before_mark : re := RSeq (RStar rdot) (RSeq (is 91) (RSeq rdot (RStar rdot))).
Definition after_mark : re := RSeq (RStar rdot) (RSeq (is 93) (RStar rdot)).
Definition brace_mark : str := u "\{".
Definition newline_mark : str := u "\n".

(** 2731-2733 and 2735-2737: bm.expand gives the groups with the new text between
    them, and nothing else. *)
Definition fiddle_one (mark new s : str) : str :=
  match re_match3 before_mark (lit mark) after_mark s with
  | Some (p, q) => p ++ new ++ q
  | None => s
  end.
(** regex_fiddle, 2726-2739 *)
Definition regex_fiddle (s : str) : str :=
  fiddle_one newline_mark (u "\n\r") (fiddle_one brace_mark (u "\\{") s).

(** ** re.compile(.., re.MULTILINE|re.DOTALL)
    python's sre_parse, without categories such as \d, hexadecimal and octal
    escapes, {m,n}, ^, possessive repetition and (? groups: [NotImplErr] there.
    [ValueErr] stands for re.error. *)
(** The tokens of sre_parse.Tokenizer: a character, or an escaped one (true). *)
Definition tok := (bool * N)%type.
Fixpoint toks (s : str) : outcome (list tok) :=
  match s with
  | [] => Ret []
  | c :: s' =>
      if (c =? 92)%N
      then match s' with
           | [] => Raise ValueErr
           | d :: r => obind (toks r) (fun l => Ret ((true, d) :: l))
           end
      else obind (toks s') (fun l => Ret ((false, c) :: l))
  end.
Definition alnum (c : N) : bool :=
  ((48 <=? c) && (c <=? 57) || (65 <=? c) && (c <=? 90) || (97 <=? c) && (c <=? 122))%N.
(** _class_escape and _escape: what an escaped character stands for. *)
Definition escapes : list (N * N) := [(110, 10); (116, 9); (114, 13); (102, 12); (118, 11); (97, 7)]%N.
Definition tok_code (t : tok) : outcome N :=
  let (e, c) := t in
  if e then match dget N.eqb c escapes with
            | Some d => Ret d
            | None => if alnum c then Raise NotImplErr else Ret c
            end
  else Ret c.
Definition is_tok (c : N) (t : tok) : bool := negb (fst t) && (snd t =? c)%N.
(** The ranges of a set, up to the closing bracket. *)
Fixpoint set_items (first : bool) (ts : list tok) : outcome (list (N * N) * list tok) :=
  match ts with
  | [] => Raise ValueErr
  | t :: r =>
      if is_tok 93 t && negb first then Ret ([], r)
      else obind (tok_code t) (fun lo =>
        let single := obind (set_items false r) (fun p => Ret ((lo, lo) :: fst p, snd p)) in
        match r with
        | h :: r2 =>
            if is_tok 45 h
            then match r2 with
                 | [] => Raise ValueErr
                 | t2 :: r3 =>
                     if is_tok 93 t2 then Ret ([(lo, lo); (45, 45)%N], r3)
                     else obind (tok_code t2) (fun hi =>
                            if (hi <? lo)%N then Raise ValueErr
                            else obind (set_items false r3) (fun p => Ret ((lo, hi) :: fst p, snd p)))
                 end
            else single
        | [] => single
        end)
  end.
Definition in_items (l : list (N * N)) (c : N) : bool := existsb (fun p => ((fst p <=? c) && (c <=? snd p))%N) l.
(** After the opening bracket. *)
Definition p_set (ts : list tok) : outcome (re * list tok) :=
  match ts with
  | [] => Raise ValueErr
  | t :: r =>
      if is_tok 94 t
      then obind (set_items true r) (fun p => Ret (RChr (fun c => negb (in_items (fst p) c)), snd p))
      else obind (set_items true ts) (fun p => Ret (RChr (in_items (fst p)), snd p))
  end.
(** A repetition sign after an atom; two of them are an error. *)
Definition rep_sign (t : tok) : bool := is_tok 42 t || is_tok 43 t || is_tok 63 t || is_tok 123 t.
Definition no_rep (a : re) (ts : list tok) : outcome (re * list tok) :=
  match ts with
  | t :: _ => if rep_sign t then (if is_tok 123 t || is_tok 43 t then Raise NotImplErr else Raise ValueErr) else Ret (a, ts)
  | [] => Ret (a, ts)
  end.
Definition p_rep (a : re) (ts : list tok) : outcome (re * list tok) :=
  match ts with
  | t :: r =>
      if rep_sign t
      then let lazily := match r with q :: _ => is_tok 63 q | [] => false end in
           let r' := if lazily then tl r else r in
           if is_tok 42 t then no_rep (if lazily then RLazy a else RStar a) r'
           else if is_tok 43 t then no_rep (RSeq a (if lazily then RLazy a else RStar a)) r'
           else if is_tok 63 t then no_rep (if lazily then RAlt REps a else RAlt a REps) r'
           else Raise NotImplErr
      else Ret (a, ts)
  | [] => Ret (a, ts)
  end.
Definition then_re (a b : re) : re := match b with REps => a | _ => RSeq a b end.
Fixpoint p_alt (n : nat) (ts : list tok) : outcome (re * list tok) :=
  match n with
  | O => Raise OutOfFuel
  | Datatypes.S n' =>
      obind (p_seq n' ts) (fun p =>
        match snd p with
        | t :: r => if is_tok 124 t then obind (p_alt n' r) (fun q => Ret (RAlt (fst p) (fst q), snd q)) else Ret p
        | [] => Ret p
        end)
  end
with p_seq (n : nat) (ts : list tok) : outcome (re * list tok) :=
  match n with
  | O => Raise OutOfFuel
  | Datatypes.S n' =>
      match ts with
      | [] => Ret (REps, [])
      | t :: r =>
          if is_tok 124 t || is_tok 41 t then Ret (REps, ts)
          else if is_tok 36 t then obind (p_seq n' r) (fun q => Ret (then_re REol (fst q), snd q))
          else obind (p_atom n' t r) (fun p =>
               obind (p_rep (fst p) (snd p)) (fun p' =>
               obind (p_seq n' (snd p')) (fun q => Ret (then_re (fst p') (fst q), snd q))))
      end
  end
with p_atom (n : nat) (t : tok) (r : list tok) : outcome (re * list tok) :=
  match n with
  | O => Raise OutOfFuel
  | Datatypes.S n' =>
      if is_tok 91 t then p_set r
      else if is_tok 46 t then Ret (RChr (fun _ => true), r)
      else if is_tok 40 t
      then match r with
           | q :: _ => if is_tok 63 q then Raise NotImplErr
                       else obind (p_alt n' r) (fun p => match snd p with
                                                         | e :: r' => if is_tok 41 e then Ret (fst p, r') else Raise ValueErr
                                                         | [] => Raise ValueErr
                                                         end)
           | [] => Raise ValueErr
           end
      else if is_tok 94 t || is_tok 123 t then Raise NotImplErr
      else if rep_sign t then Raise ValueErr
      else obind (tok_code t) (fun c => Ret (is c, r))
  end.
Definition re_compile (s : str) : outcome re :=
  obind (toks s) (fun ts =>
  obind (p_alt (3 * length ts + 3) ts) (fun p =>
    match snd p with [] => Ret (fst p) | _ => Raise ValueErr end)).

(** ** add_type_info *)
(** Iteration over what the block holds: over the characters of a text. *)
Definition py_iter (v : value) : outcome (list value) :=
  match v with
  | VStr s => Ret (map (fun c => VStr [c]) s)
  | VList l | VSL l => Ret l
  | VDict d => Ret (map (fun kv => VStr (fst kv)) d)
  | VNum _ | VNone => Raise TypeErr
  end.
(** [a + "$" for a in ..], 2724 *)
Fixpoint with_dollar (l : list value) : outcome (list str) :=
  match l with
  | [] => Ret []
  | VStr s :: r => obind (with_dollar r) (fun t => Ret ((s ++ u "$") :: t))
  | _ => Raise TypeErr
  end.
(** 2741-2742.  Type codes are texts (simplification: python also takes other
    hashable values). *)
Fixpoint add_types (codes : list value) (cs : list str) (d : list (str * re)) : outcome (list (str * re)) :=
  match codes, cs with
  | k :: codes', c :: cs' =>
      obind (re_compile (regex_fiddle c)) (fun r =>
        match k with VStr s => add_types codes' cs' (dset str_eqb s r d) | _ => Raise TypeErr end)
  | _, _ => Ret d
  end.
(** 2744-2745 *)
Fixpoint add_prims (codes prims : list value) (d : list (str * value)) : outcome (list (str * value)) :=
  match codes, prims with
  | k :: codes', v :: prims' => match k with VStr s => add_prims codes' prims' (dset str_eqb s v d) | _ => Raise TypeErr end
  | _, _ => Ret d
  end.
(** add_type_info, 2719-2745: self.typedic and self.primdic, which are empty before
    (571-572). *)
Definition add_type_info (master : block) : outcome (list (str * re) * list (str * value)) :=
  match dget str_eqb (u "_item_type_list.construct") (b_data master) with
  | None => Ret ([], [])
  | Some _ =>
      obind (get_item (u "_item_type_list.code") master) (fun types =>
      obind (get_item (u "_item_type_list.primitive_code") master) (fun prims =>
      obind (get_item (u "_item_type_list.construct") master) (fun cons =>
      obind (py_iter cons) (fun cl =>
      obind (with_dollar cl) (fun cs =>
      obind (py_iter types) (fun codes =>
      obind (add_types codes cs []) (fun td =>
      obind (py_iter prims) (fun pl =>
      obind (add_prims codes pl []) (fun pd => Ret (td, pd))))))))))
  end.
