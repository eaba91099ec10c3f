(** Model of the list of tokens that the compiled scanner keeps
    (src/lib/py_star_scan.c): get_input (62-97), flex_scan (102-134), get_token
    (136-149), clear_mem and drop_mem (151-171), get_last_ten (175-194), with the global
    variables and MEM_ALLOC_SIZE of src/lib/star_scanner.h (10-18) and star_clear
    (src/lib/star.l 160-164).  The scanning itself is flex_scan of FlexModel.v.

    Simplifications: the three arrays, which are always allocated and freed together, are
    one; allocation never fails; line numbers are left out; reference counts are left
    out.  An access to freed memory or past the end of an array is None.  No proofs here. *)
From Coq Require Import String Ascii List NArith ZArith Bool.
From Verif Require Import PyBase ScanModel FlexModel.
Import ListNotations.
Open Scope N_scope.

(** token_list, value_list and line_no_list: NULL; allocated, with what was written and
    the room there is; or pointing to memory that was freed. *)
Definition entry := (option tok * str)%type.
Inductive cells := Null | Live (l : list entry) (room : N) | Freed.
(** The global variables: the arrays, current_len, alloc_mem, and what flex has of the
    input (start condition and text left). *)
Record cbuf := CB { cb_cells : cells; cb_len : N; cb_alloc : N; cb_start : start; cb_text : str }.
(** MOD_INIT (47-51) *)
Definition cb_init : cbuf := CB Null 0 0 Initial [].
Definition mem_alloc_size : N := 4192.

(** What a call returns. *)
Inductive cres := RNone | RTok (t : option tok) (m : str) | RToks (l : list entry) | RIndexErr
| RSystemErr                    (* NULL without an exception (170) *)
| RFuel.                        (* of the model; never *)

(** strlen (74) *)
Fixpoint upto_nul (s : str) : str := match s with [] => [] | c :: r => if c =? 0 then [] else c :: upto_nul r end.
(** free (80-87, 159-161): of NULL nothing, of freed memory undefined. *)
Definition can_free (c : cells) : bool := match c with Freed => false | _ => true end.
(** The values of the old list are looked at first (76-79, 155-158). *)
Definition can_release (c : cells) (n : N) : bool :=
  (n =? 0) || match c with Live l _ => n <=? N.of_nat (length l) | _ => false end.

(** get_input *)
Definition c_prepare (s : str) (b : cbuf) : option (cres * cbuf) :=
  if can_release (cb_cells b) (cb_len b) && can_free (cb_cells b)
  then Some (RNone, CB (Live [] mem_alloc_size) 0 mem_alloc_size Initial (upto_nul s))
  else None.

(** realloc (117-121): of NULL it is malloc, of freed memory undefined. *)
Definition c_grow (b : cbuf) : option cbuf :=
  if cb_alloc b <? cb_len b + 1 then
    match cb_cells b with
    | Null => Some (CB (Live [] (cb_alloc b + mem_alloc_size)) (cb_len b) (cb_alloc b + mem_alloc_size) (cb_start b) (cb_text b))
    | Live l _ => Some (CB (Live l (cb_alloc b + mem_alloc_size)) (cb_len b) (cb_alloc b + mem_alloc_size) (cb_start b) (cb_text b))
    | Freed => None
    end
  else Some b.
(** value_list[current_len] = ..., current_len++ (128-131) *)
Definition c_store (e : entry) (b : cbuf) : option cbuf :=
  match cb_cells b with
  | Live l room =>
      if cb_len b <? room
      then Some (CB (Live (firstn (N.to_nat (cb_len b)) l ++ [e]) room) (cb_len b + 1) (cb_alloc b) (cb_start b) (cb_text b))
      else None
  | _ => None
  end.
(** flex_scan *)
Definition c_scan (b : cbuf) : option (cres * cbuf) :=
  match FlexModel.flex_scan (cb_start b) (cb_text b) with
  | Ret (t, m, c, r) =>
      match c_grow (CB (cb_cells b) (cb_len b) (cb_alloc b) c r) with
      | Some b1 => match c_store (t, m) b1 with Some b2 => Some (RNone, b2) | None => None end
      | None => None
      end
  | Raise _ => Some (RFuel, b)
  end.
(** get_token: the position is an int, compared with a size_t (142-143), so that it is
    taken modulo 2^64. *)
Definition as_size (i : Z) : N := Z.to_N (i mod 2 ^ 64)%Z.
Definition c_read (i : N) (b : cbuf) : option (cres * cbuf) :=
  if i <? cb_len b then
    match cb_cells b with
    | Live l _ => match nth_error l (N.to_nat i) with Some (t, m) => Some (RTok t m, b) | None => None end
    | _ => None
    end
  else Some (RIndexErr, b).
Definition c_token (i : Z) (b : cbuf) : option (cres * cbuf) :=
  if as_size i =? cb_len b then
    match c_scan b with
    | Some (RFuel, b') => Some (RFuel, b')
    | Some (_, b') => c_read (as_size i) b'
    | None => None
    end
  else c_read (as_size i) b.

(** get_last_ten *)
Definition c_last_ten (b : cbuf) : option (cres * cbuf) :=
  let start_pt := if cb_len b <=? 10 then 0 else cb_len b - 10 in
  if cb_len b =? 0 then Some (RToks [], b)
  else match cb_cells b with
       | Live l _ => if cb_len b <=? N.of_nat (length l)
                     then Some (RToks (skipn (N.to_nat start_pt) (firstn (N.to_nat (cb_len b)) l)), b) else None
       | _ => None
       end.
(** drop_mem *)
Definition c_cleanup (b : cbuf) : option (cres * cbuf) :=
  if can_release (cb_cells b) (cb_len b) && can_free (cb_cells b)
  then Some (RSystemErr, CB (match cb_cells b with Null => Null | _ => Freed end) 0 0 (cb_start b) (cb_text b))
  else None.

(** Calls from python (30-37); scan itself is never called (src/yapps3_compiled_rt.py
    26-27). *)
Inductive call := Prepare (s : str) | Token (i : Z) | LastTen | Cleanup.
Definition c_step (o : call) (b : cbuf) : option (cres * cbuf) :=
  match o with
  | Prepare s => c_prepare s b
  | Token i => c_token i b
  | LastTen => c_last_ten b
  | Cleanup => c_cleanup b
  end.
Fixpoint c_run (os : list call) (b : cbuf) : option (list cres * cbuf) :=
  match os with
  | [] => Some ([], b)
  | o :: r =>
      match c_step o b with
      | Some (x, b') => match c_run r b' with Some (l, b'') => Some (x :: l, b'') | None => None end
      | None => None
      end
  end.
