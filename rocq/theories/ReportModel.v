(** Model of Validate (src/CifFile_module.nw 3857-3907), ValidationResult (3807-3845),
    validate_report (3909-3992) with error_report (3998-4023) and html_error_report
    (4027-4052), and find_parent (4381-4394).

    Simplifications: a file is the list of its data blocks with their names, and a
    dictionary the record of its checks of ValidBlockModel.v; validation of
    dictionaries (isdic) is left out, as are the lines printed on the way.  The
    reports are over results as the checks return them: a failed check comes with up
    to four entries.  How python writes a value (repr and str) and a list of texts
    is left open: the reports are for any such functions.  No proofs here. *)
From Coq Require Import String Ascii List NArith ZArith Bool.
From Verif Require Import PyBase StarBlockModel ValidateModel ValidBlockModel.
Import ListNotations.

(** del check_file[block][nogood] (3900-3901): StarBlock.__delitem__. *)
Fixpoint remove_all (ks : list str) (b : block) : block * outcome unit :=
  match ks with
  | [] => (b, Ret tt)
  | k :: r => match remove_item k b with
              | (b', Raise e) => (b', Raise e)
              | (b', Ret _) => remove_all r b'
              end
  end.
(** One block (3896-3903): the block afterwards, the names that were not found and
    the result of the checks. *)
Definition check_one (d : vdic) (b : block) : block * list str * outcome (bool * report) :=
  let un := filter (fun a => negb (v_in d a)) (b_keys b) in
  match remove_all un b with
  | (b', Raise e) => (b', un, Raise e)
  | (b', Ret _) => (b', un, block_checks d b')
  end.
(** Validate (3889-3904): the file afterwards, valid_result and no_matches. *)
Definition file := list (str * block).
Definition results : Type := list (str * (bool * report)) * list (str * list str).
Fixpoint validate (d : vdic) (f : file) : file * outcome results :=
  match f with
  | [] => ([], Ret ([], []))
  | (n, b) :: r =>
      match check_one d b with
      | (b', un, Raise e) => ((n, b') :: r, Raise e)
      | (b', un, Ret x) =>
          let (r', o) := validate d r in
          ((n, b') :: r', obind o (fun y => Ret ((n, x) :: fst y, (n, un) :: snd y)))
      end
  end.

(** A failed check, with the entries of its result apart from "result". *)
Record err := mkErr { e_values : option value; e_items : option value; e_child : option value; e_parent : option value }.
Definition errors := list (str * list (str * err)).     (* by item: names of checks and results *)
Definition valid_results := list (str * (bool * errors)).
Definition no_matches := list (str * list str).

(** ValidationResult.is_valid (3818-3831) and has_no_match_items (3833-3845).  Without
    a name they ask for methods (iterkeys, iter_keys) that dictionaries of python 3
    do not have. *)
Definition is_valid (vr : valid_results) (name : option str) : outcome bool :=
  match name with
  | None => Raise AttributeErr
  | Some n => match dget str_eqb n vr with
              | None => Raise KeyErr
              | Some (ok, es) => Ret (ok && match es with [] => true | _ => false end)
              end
  end.
Definition has_no_match_items (nm : no_matches) (name : option str) : outcome bool :=
  match name with
  | None => Raise AttributeErr
  | Some n => match dget str_eqb n nm with
              | None => Raise KeyErr
              | Some l => Ret (match l with [] => false | _ => true end)
              end
  end.

(** info_table (3950-3984) *)
Definition info_table : list (str * str) :=
  [ (u "validate_item_type", u "The following data items had badly formed values");
    (u "validate_item_esd", u "The following data items should not have esds appended");
    (u "validate_enum_range", u "The following data items have values outside permitted range");
    (u "validate_item_enum", u "The following data items have values outside permitted set");
    (u "validate_looping", u "The following data items violate looping constraints");
    (u "validate_loop_membership", u "The following looped data names are of different categories to the first looped data name");
    (u "validate_loop_key", u "A required dataname for this category is missing from the loop" ++ [10%N] ++ u " containing the dataname");
    (u "validate_loop_key_ddlm", u "A loop key is missing for the category containing the dataname");
    (u "validate_loop_references", u "A dataname required by the item is missing from the loop");
    (u "validate_parent", u "A parent dataname is missing or contains different values");
    (u "validate_child", u "A child dataname contains different values to the parent");
    (u "validate_uniqueness", u "One or more data items do not take unique values");
    (u "validate_dependents", u "A dataname required by the item is missing from the data block");
    (u "validate_exclusion", u "Both dataname and exclusive alternates or aliases are present in data block");
    (u "validate_mandatory_category", u "A required category is missing from this block");
    (u "check_mandatory_items", u "A required data attribute is missing from this block");
    (u "check_prohibited_items", u "A prohibited data attribute is present in this block") ].
(** The names of the checks that are installed (1897-1945). *)
Definition installed_ddl12 : list str :=
  map u ["validate_item_type"; "validate_item_esd"; "validate_item_enum"; "validate_enum_range"; "validate_looping";
         "validate_loop_membership"; "validate_loop_key"; "validate_loop_references";
         "validate_exclusion"; "validate_parent"; "validate_child"; "validate_dependents"; "validate_uniqueness";
         "validate_mandatory_category"]%string.
Definition installed_ddlm : list str :=
  map u ["validate_item_enum"; "validate_item_esd_ddlm"; "validate_looping_ddlm"; "validate_loop_key_ddlm";
         "validate_loop_membership"; "check_mandatory_items"; "check_prohibited_items"]%string.

(** Grouping by check instead of item (3941-3948). *)
Definition rows := list (str * err).
Definition add_error (acc : list (str * rows)) (check item : str) (e : err) : list (str * rows) :=
  match dget str_eqb check acc with
  | Some l => dset str_eqb check (l ++ [(item, e)]) acc
  | None => acc ++ [(check, [(item, e)])]
  end.
Fixpoint add_errors (acc : list (str * rows)) (item : str) (l : list (str * err)) : list (str * rows) :=
  match l with
  | [] => acc
  | (c, e) :: r => add_errors (add_error acc c item e) item r
  end.
Fixpoint by_check (acc : list (str * rows)) (es : errors) : list (str * rows) :=
  match es with
  | [] => acc
  | (item, l) :: r => by_check (add_errors acc item l) r
  end.

(** What [for a in value] goes over. *)
Definition iterate (v : value) : outcome (list value) :=
  match v with
  | VStr s => Ret (map (fun c => VStr [c]) s)
  | VList l | VSL l => Ret l
  | VDict m => Ret (map (fun kv => VStr (fst kv)) m)
  | VNum _ | VNone => Raise TypeErr
  end.
(** "%-40s": filled up with blanks on the right. *)
Definition ljust (n : nat) (s : str) : str := s ++ repeat 32%N (n - length s).
Definition nl : str := [10%N].

Section Render.
Context (repr_ str_ : value -> str) (str_list : list str -> str).
Definition opt (o : option value) (f : value -> str) : str := match o with Some v => f v | None => [] end.
Definition has (o : option value) (s : str) : str := match o with Some _ => s | None => [] end.

(** error_report (3998-4023) *)
Definition text_head (e : err) : str :=
  ljust 40 (u "Item name") ++ has (e_values e) (ljust 20 (u "Bad value(s)")) ++ has (e_items e) (ljust 20 (u "Bad dataname(s)"))
  ++ has (e_child e) (ljust 20 (u "Child")) ++ has (e_parent e) (ljust 20 (u "Parent")) ++ nl.
Definition text_row (r : str * err) : outcome str :=
  obind (match e_values (snd r) with
         | Some v => obind (iterate v) (fun l => Ret (ljust 20 (str_list (map (fun a => firstn 50 (repr_ a)) l))))
         | None => Ret []
         end) (fun vals =>
  Ret (nl ++ ljust 40 (fst r) ++ vals ++ opt (e_items (snd r)) (fun v => ljust 20 (repr_ v))
       ++ opt (e_child (snd r)) (fun v => ljust 20 (repr_ v)) ++ opt (e_parent (snd r)) (fun v => ljust 20 (repr_ v)))).
Fixpoint text_rows (l : rows) : outcome str :=
  match l with
  | [] => Ret []
  | r :: l' => obind (text_row r) (fun a => obind (text_rows l') (fun b => Ret (a ++ b)))
  end.
Definition error_report (expl : str) (l : rows) : outcome str :=
  match l with
  | [] => Raise IndexErr
  | r :: _ => obind (text_rows l) (fun body => Ret (nl ++ nl ++ u " " ++ expl ++ u ":" ++ nl ++ nl ++ text_head (snd r) ++ body))
  end.

(** html_error_report (4027-4052) *)
Definition html_head (e : err) : str :=
  u "<th>Item name</th>" ++ has (e_values e) (u "<th>Bad value(s)</th>") ++ has (e_items e) (u "<th>Bad dataname(s)</th>")
  ++ has (e_child e) (u "<th>Child</th>") ++ has (e_parent e) (u "<th>Parent</th>") ++ u "</tr>" ++ nl.
Definition html_row (r : str * err) : str :=
  u "<tr><td><tt>" ++ fst r ++ u "</tt></td>" ++ opt (e_values (snd r)) (fun v => u "<td>" ++ str_ v ++ u "</td>")
  ++ opt (e_items (snd r)) (fun v => u "<td><tt>" ++ str_ v ++ u "</tt></td>") ++ opt (e_child (snd r)) (fun v => u "<td><tt>" ++ str_ v ++ u "</tt></td>")
  ++ opt (e_parent (snd r)) (fun v => u "<td><tt>" ++ str_ v ++ u "</tt></td>") ++ u "</tr>" ++ nl.
Definition html_error_report (expl : str) (l : rows) : outcome str :=
  match l with
  | [] => Raise IndexErr
  | r :: _ => Ret (u "<h4>" ++ expl ++ u ":</h4>" ++ u "<table cellpadding=5><tr>" ++ html_head (snd r) ++ concat (map html_row l) ++ u "</table>" ++ nl)
  end.

(** 3986-3991 *)
Definition one_table (html : bool) (t : str * rows) : outcome str :=
  match dget str_eqb (fst t) info_table with
  | None => Raise KeyErr
  | Some expl => if html then html_error_report expl (snd t)
                 else obind (error_report expl (snd t)) (fun s => Ret (s ++ nl ++ nl))
  end.
Fixpoint tables_text (html : bool) (ts : list (str * rows)) : outcome str :=
  match ts with
  | [] => Ret []
  | t :: r => obind (one_table html t) (fun a => obind (tables_text html r) (fun b => Ret (a ++ b)))
  end.
Definition nonempty {A} (l : list A) : bool := match l with [] => false | _ => true end.
(** One block (3924-3991). *)
Definition block_head (html suppress : bool) (name : str) (ok : bool) (un : list str) : str :=
  let line := u "Block '" ++ name ++ (if ok then u "' is VALID" else u "' is INVALID") in
  if html then if (ok && (negb suppress || nonempty un)) || negb ok then u "<h3>" ++ line ++ u "</h3><p>" else []
  else nl ++ u " " ++ line ++ nl.
Definition unmatched (html : bool) (un : list str) : str :=
  if nonempty un then
    if html then u "<p>The following items were not found in the dictionary" ++ u " (note that this does not invalidate the data block):</p>"
      ++ u "<p><table>" ++ nl ++ concat (map (fun it => u "<tr><td>" ++ it ++ u "</td></tr>") un) ++ u "</table>" ++ nl
    else nl ++ u " The following items were not found in the dictionary:" ++ nl ++ u "Note that this does not invalidate the data block" ++ nl
      ++ concat (map (fun it => it ++ nl) un)
  else [].
Definition block_report (html suppress : bool) (nm : no_matches) (b : str * (bool * errors)) : outcome str :=
  match dget str_eqb (fst b) nm with
  | None => Raise KeyErr
  | Some un => obind (tables_text html (by_check [] (snd (snd b)))) (fun ts =>
      Ret (block_head html suppress (fst b) (fst (snd b)) un ++ unmatched html un ++ ts))
  end.
Fixpoint blocks_report (html suppress : bool) (nm : no_matches) (vr : valid_results) : outcome str :=
  match vr with
  | [] => Ret []
  | b :: r => obind (block_report html suppress nm b) (fun x => obind (blocks_report html suppress nm r) (fun y => Ret (x ++ y)))
  end.
(** validate_report (3909-3992) *)
Definition validate_report (vr : valid_results) (nm : no_matches) (html : bool) : outcome str :=
  let suppress := Nat.ltb 10 (length vr) in
  let head := if html then u "<h2>Validation results</h2>" ++ (if suppress then u "<p>For brevity, valid blocks are not reported in the output.</p>" else [])
              else u "Validation results" ++ nl ++ u "------------------" ++ nl in
  obind (blocks_report html suppress nm vr) (fun s => Ret (head ++ s)).
End Render.

(** find_parent (4381-4394) over the table of a definition. *)
Definition texts_in (v : value) (a : value) : bool :=
  match v, a with
  | (VList l | VSL l), VStr s => existsb (fun x => match x with VStr t => str_eqb s t | _ => false end) l
  | VStr t, VStr s => substr s t
  | _, _ => false
  end.
Definition find_parent (def : table) : outcome (option value) :=
  match tget (u "_item.name") def with
  | None => Ret None
  | Some (VStr s) => Ret (Some (VStr s))
  | Some names =>
      match tget (u "_item_linked.child_name") def with
      | None => Raise CifErr
      | Some ch =>
          match tget (u "_item_linked.parent_name") def with
          | None => Raise CifErr
          | Some _ => obind (iterate names) (fun l =>
              match filter (fun a => negb (texts_in ch a)) l with
              | [x] => Ret (Some x)
              | _ => Raise CifErr
              end)
          end
      end
  end.
