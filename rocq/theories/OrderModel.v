(** Model of process_template (src/StarFile.nw 2948-3030), as far as it decides the
    order of output: the datanames of the hints.  The column and delimiter of a hint,
    found by regular expressions in the text of the template, are arbitrary here; a
    template for which a regular expression does not match raises AttributeError and
    gives no hints. *)
From Coq Require Import String Ascii List NArith ZArith Bool.
From Verif Require Import PyBase StarBlockModel FormatModel WriteModel.
Import ListNotations.

(** The entries of form_hints (2963-3029): one for each item, one named 'loop' for
    each loop followed by one for each of its columns. *)
Definition template_names (t : block) : list str :=
  flat_map (fun it => match it with
                      | ON n => [n]
                      | OL k => u "loop" :: match dget Z.eqb k (b_loops t) with Some cols => cols | None => [] end
                      end) (b_order t).
Definition from_template (t : block) (hs : list hint) : Prop := map h_name hs = template_names t.
