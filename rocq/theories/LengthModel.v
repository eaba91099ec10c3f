(** Model of the lengths of lines that can be asked for when a file is written: the
    attribute maxoutlength of a file (src/StarFile.nw 945-953), SetOutputLength of a block
    (2521-2528), and how WriteOut prepares the blocks (837-858).

    A block is here what it is told about output; a list of them is self.dictionary.values().
    Simplifications: the grammar is one of the four that the files know (241-245), so
    set_grammar of a block does not fail; the text is that of FileModel.write_out, which takes
    the list delimiter of grammars 1.0 and 1.1 to be that of a new block (see
    C134_history_refuted).  No proofs here. *)
From Coq Require Import String Ascii List NArith ZArith Bool.
From Verif Require Import PyBase StarBlockModel ScanModel FormatModel OrderModel WriteModel CollectionModel FileModel.
Import ListNotations.
Open Scope string_scope.
Open Scope list_scope.

(** What a block is told about output: wraplength, maxoutlength, string_delimiters,
    list_delimiter, formatting_hints. *)
Record settings := Settings { z_wrap : Z; z_max : Z; z_delims : list delim; z_list : str; z_hints : list hint }.

(** StarBlock.__init__ without arguments for output (1461-1479). *)
Definition new_settings : settings := Settings 80 2048 [d_sq; d_dq; d_text] (u "  ") [].

(** StarFile.__init__ (950-953). *)
Definition file_max (maxoutlength : Z) : Z := if (maxoutlength =? 0)%Z then 2048%Z else maxoutlength.

(** SetOutputLength of a block (2521-2528). *)
Definition set_length (w m : Z) (s : settings) : outcome settings :=
  if (w >? m)%Z then Raise StarErr else Ret (Settings w m (z_delims s) (z_list s) (z_hints s)).

(** set_grammar of a block (2535-2544). *)
Definition set_delims (g : grammar) (s : settings) : settings :=
  let ds := [d_sq; d_dq; d_text; None] in
  let ds := match g with GS2 | G20 => ds ++ [d_tdq; d_tsq] | _ => ds end in
  let l := match g with G20 => u "  " | GS2 => u ", " | _ => z_list s end in
  Settings (z_wrap s) (z_max s) ds l (z_hints s).
Definition set_hints (hs : list hint) (s : settings) : settings :=
  Settings (z_wrap s) (z_max s) (z_delims s) (z_list s) hs.

(** The loop 855-858: the blocks as they are left, and whether it failed. *)
Fixpoint prepare (g : grammar) (hs : list hint) (w m : Z) (l : list settings) : list settings * outcome unit :=
  match l with
  | [] => ([], Ret tt)
  | s :: r =>
      let s1 := set_hints hs (set_delims g s) in
      match set_length w m s1 with
      | Raise e => (s1 :: r, Raise e)
      | Ret s2 => let x := prepare g hs w m r in (s2 :: fst x, snd x)
      end
  end.

(** A file: its blocks, maxoutlength, master_template, what the blocks are told, and
    header_comment. *)
Record ofile := OFile { f_coll : coll; f_max : Z; f_hints : list hint; f_blocks : list settings; f_header : str }.
Definition set_fblocks (l : list settings) (f : ofile) : ofile := OFile (f_coll f) (f_max f) (f_hints f) l (f_header f).

(** WriteOut(comment,wraplength=w,maxoutlength=m) (837-896): the file as it is left, and
    the text.  846-847: no class of files has the method SetOutputLength. *)
Definition write_with (comment : str) (w m : Z) (f : ofile) : ofile * outcome str :=
  if negb (m =? 0)%Z then (f, Raise AttributeErr)
  else
    let comment := match comment with [] => f_header f | _ => comment end in
    let x := prepare (c_gram (f_coll f)) (f_hints f) w (f_max f) (f_blocks f) in
    (set_fblocks (fst x) f, obind (snd x) (fun _ => write_out (f_max f) (f_hints f) comment (f_coll f))).
