(** Model of the function that make_python_function puts around the translated text of
    a dREL method (src/drel/py_from_ast.nw 66-190), and of what this function does when
    python 3 runs it: the statements of the header, not their text.  The translated
    body is a parameter, as are the data.  No proofs here. *)
From Coq Require Import String Ascii List NArith ZArith Bool.
From Verif Require Import PyBase StarBlockModel TypeInfoModel.
Import ListNotations.

(** An argument of the inner function drel_func: the column of an item of the category,
    an item that was first named within an if, the row number (124-140). *)
Inductive source :=
| SData (name : str)       (* ciffile['name'], with [packet_no] for one packet *)
| SOption (name : str)     (* __option_wN = ciffile.get('name',None), 152-157 *)
| SRow.                    (* __row_id *)
(** How many rows there are, if the row number is needed, 162-172. *)
Inductive rows_of :=
| NoRows
| RowsQuoted (name : str)  (* range(len('ciffile['name']')): the quotes end too early *)
| RowsOfCategory (cat : str).
Record header := mkHeader { h_args : list source; h_rows : rows_of }.
(** The withtable of the translation: variable, position, optional (400, 448), as in
    DrelModel. *)
Definition with_table := list (str * (str * nat * bool)).
(** 91-172; None if the method is not a loop method (183-186). *)
Definition make_header (table : with_table) (cur_row : bool) (cat : str) : option header :=
  let args := map (fun kv : str * (str * nat * bool) => if snd (snd kv) then SOption (fst kv) else SData (fst kv)) table in
  match table, cur_row with
  | [], false => None
  | _, false => Some (mkHeader args NoRows)
  | [], true => Some (mkHeader [SRow] (RowsOfCategory cat))
  | kv :: _, true => Some (mkHeader (args ++ [SRow]) (RowsQuoted (fst kv)))
  end.

(** What is passed to the body. *)
Inductive arg := AVal (v : value) | ARow (n : nat).
Record data := mkData {
  f_get : str -> outcome value;        (* ciffile[name], which may derive a value *)
  f_in : str -> bool;                  (* name in ciffile *)
  f_cat : str -> list str;             (* ciffile.dictionary.names_in_cat *)
  f_has : str -> bool                  (* ciffile.has_key_or_alias *)
}.
(** ciffile.get(name,None) and 152-157; StarFile.nw 1630-1635. *)
Definition option_value (f : data) (name : str) : outcome value :=
  match (if f_in f name then f_get f name else Ret VNone) with Ret v => Ret v | Raise KeyErr => Ret VNone | Raise e => Raise e end.
Fixpoint options (f : data) (args : list source) : outcome (list (str * value)) :=
  match args with
  | [] => Ret []
  | SOption k :: r => obind (option_value f k) (fun v => obind (options f r) (fun l => Ret ((k, v) :: l)))
  | _ :: r => options f r
  end.
Definition py_len (v : value) : outcome nat :=
  match v with
  | VStr s => Ret (length s) | VList l | VSL l => Ret (length l) | VDict d => Ret (length d)
  | VNum _ | VNone => Raise TypeErr
  end.
(** The row numbers; None: return [] (171-172). *)
Definition row_count (f : data) (r : rows_of) : outcome (option nat) :=
  match r with
  | NoRows => Ret (Some 0%nat)
  | RowsQuoted _ => Raise SyntaxErr
  | RowsOfCategory cat =>
      match filter (f_has f) (f_cat f cat) with
      | [] => Ret None
      | k :: _ => obind (f_get f k) (fun v => obind (py_len v) (fun n => Ret (Some n)))
      end
  end.
(** The arguments of map: first their values, then their iterators.  Under python 3
    the import at 143-144 binds repeat before it fails at imap, so that repeat(None)
    is what the missing options become (159-160): an iterator that does not end. *)
Inductive col := CVal (v : value) | CRepeat | CRows (n : nat).
Inductive iter := Fin (l : list arg) | Forever (a : arg).
Fixpoint map_args (f : data) (opts : list (str * value)) (n : nat) (args : list source) : outcome (list col) :=
  match args with
  | [] => Ret []
  | SData k :: r => obind (f_get f k) (fun v => obind (map_args f opts n r) (fun l => Ret (CVal v :: l)))
  | SOption k :: r =>
      match dget str_eqb k opts with
      | Some VNone => obind (map_args f opts n r) (fun l => Ret (CRepeat :: l))
      | Some v => obind (map_args f opts n r) (fun l => Ret (CVal v :: l))
      | None => Raise NameErr
      end
  | SRow :: r => obind (map_args f opts n r) (fun l => Ret (CRows n :: l))
  end.
Fixpoint iterators (l : list col) : outcome (list iter) :=
  match l with
  | [] => Ret []
  | CVal v :: r => obind (py_iter v) (fun vs => obind (iterators r) (fun t => Ret (Fin (map AVal vs) :: t)))
  | CRepeat :: r => obind (iterators r) (fun t => Ret (Forever (AVal VNone) :: t))
  | CRows n :: r => obind (iterators r) (fun t => Ret (Fin (map ARow (seq 0 n)) :: t))
  end.
(** The next element of every iterator, or the end. *)
Definition next (i : iter) : option (arg * iter) :=
  match i with Fin [] => None | Fin (a :: l) => Some (a, Fin l) | Forever a => Some (a, i) end.
Fixpoint heads (its : list iter) : option (list arg * list iter) :=
  match its with
  | [] => Some ([], [])
  | i :: r =>
      match next i with
      | None => None
      | Some (a, i') => match heads r with Some (hs, ts) => Some (a :: hs, i' :: ts) | None => None end
      end
  end.
(** list(map(drel_func,..)), 174.  There is at least one iterator. *)
Fixpoint map_rows (fuel : nat) (body : list arg -> outcome value) (its : list iter) : outcome (list value) :=
  match fuel with
  | O => Raise OutOfFuel
  | Datatypes.S n =>
      match heads its with
      | None => Ret []
      | Some (hs, ts) => obind (body hs) (fun v => obind (map_rows n body ts) (fun l => Ret (v :: l)))
      end
  end.
(** v[packet_no] for a number that is not negative. *)
Definition py_index (v : value) (i : nat) : outcome value :=
  match v with
  | VStr s => match nth_error s i with Some c => Ret (VStr [c]) | None => Raise IndexErr end
  | VList l | VSL l => match nth_error l i with Some x => Ret x | None => Raise IndexErr end
  | VDict _ => Raise KeyErr
  | VNum _ | VNone => Raise TypeErr
  end.
(** 133-137, 176: the options as they are; __row_id has no value here. *)
Fixpoint one_args (f : data) (opts : list (str * value)) (i : nat) (args : list source) : outcome (list arg) :=
  match args with
  | [] => Ret []
  | SData k :: r => obind (f_get f k) (fun v => obind (py_index v i) (fun x => obind (one_args f opts i r) (fun l => Ret (AVal x :: l))))
  | SOption k :: r =>
      match dget str_eqb k opts with
      | Some v => obind (one_args f opts i r) (fun l => Ret (AVal v :: l))
      | None => Raise NameErr
      end
  | SRow :: _ => Raise NameErr
  end.
(** The generated function: for all rows (packet_no < 0), or for one.  The fuel bounds
    the number of rows. *)
Definition compiled (h : header) : outcome unit := match h_rows h with RowsQuoted _ => Raise SyntaxErr | _ => Ret tt end.
Definition call_all (fuel : nat) (h : header) (body : list arg -> outcome value) (f : data) : outcome (list value) :=
  obind (compiled h) (fun _ =>
  obind (options f (h_args h)) (fun opts =>
  obind (row_count f (h_rows h)) (fun rows =>
    match rows with
    | None => Ret []
    | Some n =>
        obind (map_args f opts n (h_args h)) (fun cols =>
        obind (iterators cols) (fun its => map_rows fuel body its))
    end))).
Definition call_one (h : header) (body : list arg -> outcome value) (f : data) (i : nat) : outcome value :=
  obind (compiled h) (fun _ =>
  obind (options f (h_args h)) (fun opts =>
  obind (one_args f opts i (h_args h)) body)).

(** ** The body, 87-109 *)
(** [str.splitlines] for texts whose only line break is the newline (simplification:
    python also breaks at other characters). *)
Fixpoint lines_of (s : str) : list str :=
  match s with
  | [] => []
  | c :: r => if (c =? 10)%N then [] :: lines_of r
              else match lines_of r with
                   | [] => [[c]]
                   | l :: t => (c :: l) :: t
                   end
  end.
Definition indent : str := repeat 32%N 8.
(** min(no_spaces) of a text without any line that has something fails (90). *)
Definition body_text (s : str) : outcome str :=
  if forallb (fun l => match l with [] => true | _ => false end) (lines_of s) then Raise ValueErr
  else Ret (concat (map (fun l => indent ++ l ++ [10%N]) (lines_of s))).
(** add_indent, 885-887: its n is not used. *)
Fixpoint add_indent (s : str) : str :=
  match s with
  | [] => []
  | c :: r => if (c =? 10)%N then c :: repeat 32%N 4 ++ add_indent r else c :: add_indent r
  end.
