(** Model of ddlm_parse_valid (src/CifFile_module.nw 1348-1357), which reads from the
    main block of a dictionary which attributes are mandatory and which are prohibited
    in a scope.

    The definitions are the table of TreeModel.v; [n] bounds the depth of the
    categories.  Simplification: a scope that is not a text raises TypeError (a number
    would be taken as it is).  No proofs here. *)
From Coq Require Import String Ascii List NArith Bool.
From Verif Require Import PyBase StarBlockModel LoopModel ValidateModel BlockCheckModel TreeModel.
Import ListNotations.

Definition valid_application : str := u "_dictionary_valid.application".
Definition valid_attributes : str := u "_dictionary_valid.attributes".

(** scopes[scope[0]] = self.expand_category_opt(valid_info) *)
Definition enter (n : nat) (d : defs) (scope info : value) (sc : scopes) : outcome scopes :=
  obind (ValidateModel.iterate info) (fun l =>
  obind (texts l) (fun names =>
  obind (expand n d names) (fun found =>
  obind (vindex scope 0) (fun s =>
  match s with VStr s => Ret (dset str_eqb s found sc) | _ => Raise TypeErr end)))).
(** The loop over packets (1351-1357): the tables of mandatory and of prohibited
    attributes. *)
Fixpoint parse_rows (n : nat) (d : defs) (ps : list packet) (mand naughty : scopes) : outcome (scopes * scopes) :=
  match ps with
  | [] => Ret (mand, naughty)
  | p :: r =>
      obind (p_attr valid_application p) (fun scope =>
      obind (p_attr valid_attributes p) (fun info =>
      obind (vindex scope 1) (fun kind =>
      if veq_text (Some kind) (u "Mandatory") then obind (enter n d scope info mand) (fun mand' => parse_rows n d r mand' naughty)
      else if veq_text (Some kind) (u "Prohibited") then obind (enter n d scope info naughty) (fun naughty' => parse_rows n d r mand naughty')
      else parse_rows n d r mand naughty)))
  end.
Definition parse_valid (n : nat) (d : defs) (master : block) : outcome (scopes * scopes) :=
  if negb (has_key valid_application master) then Ret ([], [])
  else obind (loop_packets valid_application master) (fun ps => parse_rows n d ps [] []).
