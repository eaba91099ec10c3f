(** Line folding and line prefix protocols (src/StarFile.nw 2811-2925).
    No proofs here. *)
From Coq Require Import String Ascii List NArith ZArith Bool.
From Verif Require Import PyBase RegexModel.
Import ListNotations.

Definition nl : N := 10%N.
Definition bslash : N := 92%N.
Definition semi : N := 59%N.

(** [s.split('\n')]: never empty. *)
Fixpoint split_nl (s : str) : list str :=
  match s with
  | [] => [[]]
  | c :: s' =>
      if (c =? nl)%N then [] :: split_nl s'
      else match split_nl s' with l :: ls => (c :: l) :: ls | [] => [[c]] end
  end.

(** [s.replace(pat,rep)] for non-empty [pat]; [skip] counts the characters still
    covered by the last occurrence. *)
Fixpoint replace_go (pat rep : str) (skip : nat) (s : str) : str :=
  match s with
  | [] => []
  | c :: s' =>
      match skip with
      | Datatypes.S k => replace_go pat rep k s'
      | O => if starts_with pat s then rep ++ replace_go pat rep (length pat - 1) s'
             else c :: replace_go pat rep 0 s'
      end
  end.
Definition py_replace (pat rep s : str) : str := replace_go pat rep 0 s.

(** Slices [s[:i]] and [s[i:]]. *)
Definition slice_pos (n : nat) (i : Z) : nat :=
  Z.to_nat (if (i <? 0)%Z then i + Z.of_nat n else i)%Z.
Definition upto (i : Z) (s : str) : str := firstn (slice_pos (length s) i) s.
Definition from (i : Z) (s : str) : str := skipn (slice_pos (length s) i) s.

Definition blank_chars : list N := [32; 11; 9; 12]%N.   (* [ \v\t\f] *)
Definition blanks : re := RStar (one_of blank_chars).

(** "\\[ \v\t\f]*\n" as written in apply_line_folding (2829): the python literal
    is not raw, so the expression asks for "[", a blank of each kind, any number
    of "]" and a newline. *)
Definition re_fold_check : re :=
  rseq [is 91; is 32; is 11; is 9; is 12; RStar (is 93); is nl].
(** r"\\[ \v\t\f]*\n" (2863, 2884). *)
Definition re_fold_header : re := rseq [is bslash; blanks; is nl].
(** r"\\[ \v\t\f]*$\n?" with re.M (2864). *)
Definition re_fold_mark : re := rseq [is bslash; blanks; REol; ropt (is nl)].
(** "[ \v\f\t]+" (2842). *)
Definition re_blanks : re := rplus (one_of [32; 11; 12; 9]%N).

(** Last character test [l[-1]=='\\']. *)
Definition ends_bslash (l : str) : bool :=
  match rev l with c :: _ => (c =? bslash)%N | [] => false end.

(** The while loop of apply_line_folding (2841-2848): what is appended for one
    over-long line before its last bit, and the last bit. *)
Fixpoint fold_loop (fuel : nat) (minw maxw : Z) (bit : str) : outcome (str * str) :=
  if (Z.of_nat (length bit) >? maxw)%Z then
    match fuel with
    | O => Raise OutOfFuel
    | Datatypes.S fuel' =>
        let cut := match re_search re_blanks (from minw bit) with
                   | Some k => if (Z.of_nat k <? maxw - 1)%Z then (minw + Z.of_nat k)%Z else (maxw - 1)%Z
                   | None => (maxw - 1)%Z
                   end in
        obind (fold_loop fuel' minw maxw (from cut bit)) (fun r =>
        Ret (upto cut bit ++ [bslash; nl] ++ fst r, snd r))
    end
  else Ret ([], bit).

(** What is appended for one line (2832-2851); [current_bit[-1]] on an empty bit
    raises IndexError. *)
Definition fold_line (fuel : nat) (minw maxw : Z) (l : str) : outcome str :=
  if (Z.of_nat (length l) <? maxw)%Z then
    Ret (l ++ (if ends_bslash l then [bslash; nl] else []) ++ [nl])
  else
    obind (fold_loop fuel minw maxw l) (fun r =>
    match snd r with
    | [] => Raise IndexErr
    | bit => Ret (fst r ++ bit ++ (if ends_bslash bit then [bslash; nl] else []) ++ [nl])
    end).

Fixpoint fold_lines (fuel : nat) (minw maxw : Z) (ls : list str) : outcome str :=
  match ls with
  | [] => Ret []
  | l :: ls' =>
      obind (fold_line fuel minw maxw l) (fun a =>
      obind (fold_lines fuel minw maxw ls') (fun b => Ret (a ++ b)))
  end.

Definition max_length (ls : list str) : nat := fold_right (fun l m => Nat.max (length l) m) 0%nat ls.

(** apply_line_folding (2824-2853). *)
Definition apply_line_folding (fuel : nat) (minw maxw : Z) (s : str) : outcome str :=
  let lines := split_nl s in
  if (Z.of_nat (max_length lines) <? maxw)%Z
     && match re_match re_fold_check s with None => true | Some _ => false end
  then Ret s
  else obind (fold_lines fuel minw maxw lines) (fun o => Ret (removelast ([bslash; nl] ++ o))).

(** remove_line_folding (2860-2866). *)
Definition remove_line_folding (s : str) : str :=
  match re_match re_fold_header s with
  | Some _ => re_remove re_fold_mark 0 s
  | None => s
  end.

(** apply_line_prefix (2880-2895); [prefix[0]] raises IndexError on "". *)
Definition apply_line_prefix (s prefix : str) : outcome str :=
  match prefix with
  | [] => Raise IndexErr
  | c :: _ =>
      if (c =? semi)%N || cmem bslash prefix then Raise StarErr
      else
        match re_match re_fold_header s with
        | Some (_, not_header) =>
            Ret (prefix ++ [bslash; bslash; nl] ++ prefix ++ py_replace [nl] (nl :: prefix) not_header)
        | None =>
            Ret (prefix ++ [bslash; nl] ++ prefix ++ py_replace [nl] (nl :: prefix) s)
        end
  end.

(** The two groups of the expression in remove_line_prefix (2904); python reads
    the first class "[^;\\\n]" as "neither semicolon nor newline". *)
Definition re_prefix : re := RSeq (none_of [semi; nl]) (rplus (none_of [nl; bslash])).
Definition re_prefix_end : re := rseq [r12 (is bslash); RStar (one_of [32; 9; 11; 12]%N); is nl].

(** remove_line_prefix (2902-2917).  [folding[:2]=='\\\\'] looks at the first two
    characters of the second group. *)
Definition remove_line_prefix (s : str) : str :=
  match re_match2 re_prefix re_prefix_end s with
  | Some (prefix, folding, rest) =>
      let out := py_replace (nl :: prefix) [nl] (nl :: rest) in
      if starts_with [bslash; bslash] folding then bslash :: out
      else skipn 1 out
  | None => s
  end.

(** The search for an unused prefix in _formatstring (2774-2775). *)
Fixpoint find_prefix (fuel : nat) (prefix s : str) : outcome str :=
  if substr prefix s then
    match fuel with
    | O => Raise OutOfFuel
    | Datatypes.S f => find_prefix f (prefix ++ [58]%N) s
    end
  else Ret prefix.
