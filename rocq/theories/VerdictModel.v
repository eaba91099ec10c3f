(** Model of the checks that only a DDLm dictionary uses: validate_item_esd_ddlm
    (src/CifFile_module.nw 2048-2061), validate_item_container with decide
    (2004-2023), and of the checks that install_validation_functions puts in place for
    such a dictionary (1927-1941).

    Simplifications: the s.u.s that a failed check reports are rationals, turned into
    values by the function [num].  The scope handed to run_block_validation is not
    handed on (2664-2667), so that the block checks use 'Item'.  No proofs here. *)
From Coq Require Import String Ascii List NArith ZArith QArith Bool.
From Verif Require Import PyBase StarBlockModel RegexModel NumberModel ValidateModel BlockCheckModel TreeModel KeyModel.
Import ListNotations.

(** The list in 2050. *)
Definition number_types : list str := map u ["Count"; "Index"; "Integer"; "Real"; "Imag"; "Complex"; "Binary"; "Hexadecimal"; "Octal"]%string.
(** 2049: the attribute name is the text 'self.primitive_type'. *)
Definition su_attribute : str := u "self.primitive_type".
(** [get_number_with_esd(a)[1] for a in item_values] (2056) *)
Fixpoint sus (l : list value) : outcome (list (option Q)) :=
  match l with
  | [] => Ret []
  | a :: r => obind (number_of a) (fun ne => obind (sus r) (fun es => Ret (snd ne :: es)))
  end.
Definition su_value (num : Q -> value) (e : option Q) : value := match e with Some q => num q | None => VNone end.
(** 2048-2061, with the attribute name of 2049 as argument. *)
Definition su_check (num : Q -> value) (attr : str) (d : cifdic) (name : str) (v : value) : outcome result :=
  obind (dic_get d name) (fun def =>
  if negb (match tget attr def with Some (VStr s) => smem s number_types | _ => false end) then Ret RNone
  else
    let can_esd := veq_text (tget (u "_type.purpose") def) (u "Measurand") in
    obind (listify v) (fun vs =>
    obind (sus vs) (fun es =>
    Ret (match filter (fun e => match e with None => can_esd | Some _ => negb can_esd end) es with
         | [] => RTrue
         | bad => RFalse (map (su_value num) bad) []
         end)))).
Definition validate_item_esd_ddlm (num : Q -> value) (d : cifdic) (name : str) (v : value) : outcome result := su_check num su_attribute d name v.

(** validate_item_container (2011-2023): the method decide is called like a function,
    which there is none of that name; for an Array the test is made before that call
    too.  Nothing is returned for other containers ([None]). *)
Definition validate_item_container (d : cifdic) (name : str) (v : value) : outcome (option result) :=
  obind (dic_get d name) (fun def =>
  match tget (u "_type.container") def with
  | None => Raise KeyErr
  | Some c =>
      if existsb (fun x => veq_text (Some c) x) (map u ["Single"; "Multiple"; "List"; "Array"]%string) then obind (listify v) (fun _ => Raise NameErr) else Ret None
  end).

(** 1927-1941 *)
Definition ddlm_checks (num : Q -> value) (d : cifdic) (tbl : keytable) (mand naughty : scopes) : checks := mkChecks
  [(u "validate_item_enum", validate_item_enum d); (u "validate_item_esd_ddlm", validate_item_esd_ddlm num d)]
  []
  [(u "validate_looping_ddlm", validate_looping_ddlm d); (u "validate_loop_key_ddlm", validate_loop_key_ddlm d tbl); (u "validate_loop_membership", validate_loop_membership d)]
  [(u "check_mandatory_items", fun t => check_mandatory_items mand t (u "Item")); (u "check_prohibited_items", fun t => check_prohibited_items naughty t (u "Item"))].
