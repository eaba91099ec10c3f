(** Formatting of values and blocks for output: _formatstring, CIFStringIO,
    format_value, printsection (src/StarFile.nw 2430-2778, 3042-3098).
    No proofs here. *)
From Coq Require Import String Ascii List NArith ZArith Bool.
From Verif Require Import PyBase RegexModel FoldModel StarBlockModel ScanModel.
Import ListNotations.

(** A delimiter: python's None or a text. *)
Definition delim := option str.
Definition delim_eqb (a b : delim) : bool :=
  match a, b with Some x, Some y => str_eqb x y | None, None => true | _, _ => false end.
Definition d_sq : delim := Some [sq].
Definition d_dq : delim := Some [dq].
Definition d_text : delim := Some [nl; semi].
Definition d_tsq : delim := Some [sq; sq; sq].
Definition d_tdq : delim := Some [dq; dq; dq].

(** string_delimiters after set_grammar (2535-2544). *)
Definition string_delimiters (g : grammar) : list delim :=
  [d_sq; d_dq; d_text; None] ++ match g with G20 | GS2 => [d_tdq; d_tsq] | _ => [] end.
(** list_delimiter; for 1.0/1.1 the attribute is whatever it was, initially "  ". *)
Definition list_delimiter (g : grammar) : str := match g with GS2 => u ", " | _ => u "  " end.

Definition minus (ds out : list delim) : list delim :=
  filter (fun d => negb (existsb (delim_eqb d) out)) ds.
Definition meet (ds keep : list delim) : list delim :=
  filter (fun d => existsb (delim_eqb d) keep) ds.

(** The delimiters allowed for a text (2746-2760). *)
Definition allowed (g : grammar) (maxout : Z) (s : str) : list delim :=
  let a := string_delimiters g in
  let a := if (length s =? 0)%nat then minus a [None] else a in
  let a := if (Z.of_nat (length s) >? maxout - 2)%Z || cmem nl s then meet a [d_text; d_tsq; d_tdq] else a in
  let a := if existsb (fun k => cmem k s) (u "[]{}" ++ [11; 9; 32]%N ++ u ",") then minus a [None] else a in
  let a := if match s with c :: _ => cmem c (u "_$#;(") | [] => false end then minus a [None] else a in
  let a := if (3 <? length s)%nat && (str_eqb (lower (firstn 4 s)) (u "data") || str_eqb (lower (firstn 4 s)) (u "save"))
           then minus a [None] else a in
  let a := if (5 <? length s)%nat && str_eqb (lower (firstn 6 s)) (u "global") then minus a [None] else a in
  let a := if cmem dq s then minus a [d_dq; None] else a in
  if cmem sq s then minus a [d_sq; None] else a.

(** The choice among them (2761-2765). *)
Definition choose (req : delim) (a : list delim) : delim :=
  if existsb (delim_eqb req) a then req
  else if existsb (delim_eqb d_sq) a then d_sq
  else if existsb (delim_eqb d_dq) a then d_dq
  else d_text.

(** The text field form (2768-2778): folding with the default widths 60 and 80 if
    a line is longer than maxoutlength, then a prefix if needed.  The numbers of
    rounds for the two while loops are large enough (proved). *)
Definition text_field (maxout : Z) (s : str) : outcome str :=
  obind (if (Z.of_nat (max_length (split_nl s)) >? maxout)%Z then apply_line_folding (length s) 60 80 s else Ret s)
  (fun p =>
  obind (if substr [nl; semi] p then
           obind (find_prefix (length p) (u "CIF:") p) (fun x => apply_line_prefix p (x ++ u "> "))
         else Ret p)
  (fun q => Ret ([nl; semi] ++ q ++ [nl; semi]))).

(** _formatstring (2743-2778) without the "reformat" hint, which rewraps the text. *)
Definition format_string (g : grammar) (maxout : Z) (req : delim) (s : str) : outcome str :=
  match choose req (allowed g maxout s) with
  | None => Ret s
  | Some d =>
      if existsb (str_eqb d) [[dq]; [sq]; [dq; dq; dq]; [sq; sq; sq]] then Ret (d ++ s ++ d)
      else text_field maxout s
  end.
