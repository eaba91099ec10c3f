(** Model of the decorator track_recursion (src/CifFile_module.nw 4310-4338), used on
    CifDic.derive_item (2903).

    The decorated function is arbitrary: its body is a program that may return,
    raise, or call the decorated function again and go on with what that call
    returned or raised.  [data] stands for the remaining arguments (which
    dictionary, which data block).  [flag] is the keyword allow_defaults, None if
    it is not given. *)
From Coq Require Import String Ascii List NArith Bool.
From Verif Require Import PyBase.
Import ListNotations.

Inductive derr :=
| ERecursion (key : str) (stack : list str)      (* CifRecursionError *)
| EDerivation (key : str)                        (* StarDerivationError *)
| EFailure (key : str)                           (* StarDerivationFailure *)
| EAttribute                                     (* stored_use_defaults not there *)
| EIndex                                         (* pop from an empty list *)
| EOther (n : N).
Inductive prog :=
| Done (v : value)
| Fail (e : derr)
| Call (key : str) (data : N) (flag : option bool) (next : value + derr -> prog).

Inductive dres := DOk (v : value) | DErr (e : derr) | DFuel.
(** The attributes of the wrapper. *)
Record rstate := mkR { called : list str; stored : option bool }.
(** A start of the body: the call stack with the new key last, and the
    arguments. *)
Record entry := mkEntry { e_stack : list str; e_data : N; e_flag : option bool }.
Definition call_result := (dres * rstate * list entry)%type.

(** The body, given the decorated function. *)
Fixpoint exec (call : str -> N -> option bool -> rstate -> call_result) (p : prog) (st : rstate) : call_result :=
  match p with
  | Done v => (DOk v, st, [])
  | Fail e => (DErr e, st, [])
  | Call k d f next =>
      let '(r, st1, tr1) := call k d f st in
      match r with
      | DFuel => (DFuel, st1, tr1)
      | DOk v => let '(r2, st2, tr2) := exec call (next (inl v)) st1 in (r2, st2, tr1 ++ tr2)
      | DErr e => let '(r2, st2, tr2) := exec call (next (inr e)) st1 in (r2, st2, tr1 ++ tr2)
      end
  end.
(** The except clause (4327-4331). *)
Definition convert (r : dres) (st : rstate) : dres :=
  match r, called st with
  | DErr (EDerivation _), [k] => DErr (EFailure k)
  | _, _ => r
  end.
Definition is_nil {A} (l : list A) : bool := match l with [] => true | _ => false end.
(** wrapper (4313-4336).  The finally clause pops; it then sets another attribute
    (stored_used_defaults) that nothing reads.  [n] bounds the nesting. *)
Fixpoint wrapper (body : str -> N -> option bool -> prog) (n : nat) (key : str) (data : N) (flag : option bool) (st : rstate) : call_result :=
  match n with
  | O => (DFuel, st, [])
  | Datatypes.S n' =>
      if mem str_eqb key (called st) then (DErr (ERecursion key (called st)), st, [])
      else
        let start (st1 : rstate) (flag1 : option bool) :=
          let stack := called st1 ++ [key] in
          let '(r, st2, tr) := exec (wrapper body n') (body key data flag1) (mkR stack (stored st1)) in
          let tr' := mkEntry stack data flag1 :: tr in
          if is_nil (called st2) then (DErr EIndex, st2, tr')
          else (convert r st2, mkR (removelast (called st2)) (stored st2), tr') in
        if is_nil (called st) then start (mkR [] (Some (match flag with Some b => b | None => false end))) flag
        else match stored st with
             | Some b => start st (Some b)
             | None => (DErr EAttribute, st, [])
             end
  end.
