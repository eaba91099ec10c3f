(** The fragment of python's [re] used by the modelled code: regular expressions
    as syntax and a backtracking matcher that lists all matches in the order in
    which python tries them, so that the first one is python's match.  No proofs
    here. *)
From Coq Require Import String Ascii List NArith ZArith Bool.
From Verif Require Import PyBase.
Import ListNotations.

Inductive re :=
| REps
| RChr (p : N -> bool)          (* one character of a class *)
| RSeq (a b : re)
| RAlt (a b : re)               (* a|b : a is tried first *)
| RStar (a : re)                (* a*  : greedy *)
| RLazy (a : re)                (* a*? *)
| RAhead (a : re)               (* (?=a) *)
| RNot (a : re)                 (* (?!a) *)
| REol                          (* $ with re.M: before a newline or at the end *)
| REnd.                         (* $ : at the end or before a final newline *)

(** Greedy and lazy repetition.  Iterations that consume nothing are not
    repeated (no regular expression of the code has a nullable body under a
    star), so [length s] iterations are enough. *)
Section Star.
  Context (m : str -> list (str * str)).
  Fixpoint star_go (n : nat) (s : str) : list (str * str) :=
    match n with
    | O => [([], s)]
    | Datatypes.S n' =>
        flat_map (fun cr => match fst cr with
                            | [] => []
                            | _ => map (fun cr2 => (fst cr ++ fst cr2, snd cr2)) (star_go n' (snd cr))
                            end) (m s)
        ++ [([], s)]
    end.
  Fixpoint lazy_go (n : nat) (s : str) : list (str * str) :=
    match n with
    | O => [([], s)]
    | Datatypes.S n' =>
        ([], s) ::
        flat_map (fun cr => match fst cr with
                            | [] => []
                            | _ => map (fun cr2 => (fst cr ++ fst cr2, snd cr2)) (lazy_go n' (snd cr))
                            end) (m s)
    end.
End Star.

(** All matches at the start of [s], in python's order, as (matched, rest). *)
Fixpoint rmatch (r : re) (s : str) : list (str * str) :=
  match r with
  | REps => [([], s)]
  | RChr p => match s with c :: s' => if p c then [([c], s')] else [] | [] => [] end
  | RSeq a b =>
      flat_map (fun cr => map (fun cr2 => (fst cr ++ fst cr2, snd cr2)) (rmatch b (snd cr))) (rmatch a s)
  | RAlt a b => rmatch a s ++ rmatch b s
  | RStar a => star_go (rmatch a) (length s) s
  | RLazy a => lazy_go (rmatch a) (length s) s
  | RAhead a => match rmatch a s with [] => [] | _ => [([], s)] end
  | RNot a => match rmatch a s with [] => [([], s)] | _ => [] end
  | REol => match s with [] => [([], s)] | c :: _ => if (c =? 10)%N then [([], s)] else [] end
  | REnd => match s with [] => [([], s)] | [c] => if (c =? 10)%N then [([], s)] else [] | _ => [] end
  end.

(** [re.match]: the first match at the start of the text. *)
Definition re_match (r : re) (s : str) : option (str * str) := hd_error (rmatch r s).

(** [re.match("(a)(b)")] with the spans of both groups. *)
Definition re_match2 (a b : re) (s : str) : option (str * str * str) :=
  hd_error (flat_map (fun cr => map (fun cr2 => (fst cr, fst cr2, snd cr2)) (rmatch b (snd cr))) (rmatch a s)).

(** [re.search(..).start()] *)
Fixpoint re_search (r : re) (s : str) : option nat :=
  match re_match r s with
  | Some _ => Some 0%nat
  | None => match s with [] => None | _ :: s' => option_map Datatypes.S (re_search r s') end
  end.

(** [re.sub(r,"",s)] for a regular expression that matches no empty text;
    [skip] counts the characters still covered by the last match. *)
Fixpoint re_remove (r : re) (skip : nat) (s : str) : str :=
  match s with
  | [] => []
  | c :: s' =>
      match skip with
      | Datatypes.S k => re_remove r k s'
      | O => match re_match r s with
             | Some (_ :: m, _) => re_remove r (length m) s'
             | _ => c :: re_remove r 0 s'
             end
      end
  end.

(** Notation-free combinators. *)
Definition is (c : N) : re := RChr (N.eqb c).
Definition one_of (cs : list N) : re := RChr (fun c => existsb (N.eqb c) cs).
Definition none_of (cs : list N) : re := RChr (fun c => negb (existsb (N.eqb c) cs)).
Definition rplus (a : re) : re := RSeq a (RStar a).
Definition ropt (a : re) : re := RAlt a REps.
Definition r12 (a : re) : re := RAlt (RSeq a a) a.      (* a{1,2} *)
Fixpoint rseq (l : list re) : re :=
  match l with [] => REps | [a] => a | a :: l' => RSeq a (rseq l') end.
(** One letter in either case, as in (S|s). *)
Definition letter (up : N) : re := RAlt (is up) (is (up + 32)).
(** A literal text. *)
Definition lit (s : str) : re := rseq (map is s).
(** [.] : anything but a newline. *)
Definition rdot : re := RChr (fun c => negb (c =? 10)%N).

(** [\s] for unicode texts. *)
Definition is_space (c : N) : bool :=
  ((9 <=? c) && (c <=? 13) || (28 <=? c) && (c <=? 32) || (c =? 0x85) || (c =? 0xA0)
   || (c =? 0x1680) || (0x2000 <=? c) && (c <=? 0x200A) || (c =? 0x2028) || (c =? 0x2029)
   || (c =? 0x202F) || (c =? 0x205F) || (c =? 0x3000))%N.
