(** Row access to loops: LoopBlock and the packet functions of StarBlock
    (src/StarFile.nw 1221-1398 and 2188-2403).  No proofs here.

    Not modelled: derivation of missing packet attributes from a dictionary
    (without a dictionary a missing attribute raises AttributeError), semantic
    packets (2264-2367), datanames that collide with python's own attributes of
    lists such as [__class__]. *)
From Coq Require Import String Ascii List NArith ZArith Bool.
From Verif Require Import PyBase StarBlockModel.
Import ListNotations.
Open Scope N_scope.

(** python's [==] on data values.  Numbers are compared by their printed form
    (simplification: python also equates 1 and 1.0); a StarList is a list. *)
Fixpoint py_eq (a b : value) {struct a} : bool :=
  let fix eql (x y : list value) {struct x} : bool :=
    match x, y with
    | [], [] => true
    | p :: x', q :: y' => py_eq p q && eql x' y'
    | _, _ => false
    end in
  match a, b with
  | VStr x, VStr y => str_eqb x y
  | VNum x, VNum y => str_eqb x y
  | VNone, VNone => true
  | VList x, VList y | VList x, VSL y | VSL x, VList y | VSL x, VSL y => eql x y
  | VDict x, VDict y =>
      Nat.eqb (length x) (length y) &&
      forallb (fun kv => match kv with (k, v) =>
                 match dget str_eqb k y with Some w => py_eq v w | None => false end end) x
  | _, _ => false
  end.

(** A StarPacket (1288-1315): the values in column order, each also available
    under its column name. *)
Definition packet := list (str * value).

(** [getattr(packet,name)] (1296-1315): attributes are stored under lower-case
    names; without dictionary a missing one is an AttributeError. *)
Definition p_attr (name : str) (p : packet) : outcome value :=
  match dget str_eqb (lower name) p with Some v => Ret v | None => Raise AttributeErr end.

(** What [zip] draws from one value. *)
Definition py_iter (v : value) : outcome (list value) :=
  match v with
  | VList l | VSL l => Ret l
  | VStr s => Ret (map (fun c => VStr [c]) s)
  | VDict d => Ret (map (fun kv => VStr (fst kv)) d)
  | VNum _ | VNone => Raise TypeErr
  end.
Fixpoint py_iters (vs : list value) : outcome (list (list value)) :=
  match vs with
  | [] => Ret []
  | v :: r => obind (py_iter v) (fun l => obind (py_iters r) (fun ls => Ret (l :: ls)))
  end.

(** [zip( *cols)]: rows until the shortest column ends; no columns, no rows. *)
Fixpoint heads (cols : list (list value)) : option (list value) :=
  match cols with
  | [] => Some []
  | [] :: _ => None
  | (x :: _) :: r => option_map (cons x) (heads r)
  end.
Fixpoint zip_rows (n : nat) (cols : list (list value)) : list (list value) :=
  match n with
  | O => []
  | Datatypes.S n' =>
      match heads cols with
      | None => []
      | Some r => r :: zip_rows n' (map (fun c => skipn 1 c) cols)
      end
  end.
Definition py_zip (cols : list (list value)) : list (list value) :=
  match cols with [] => [] | c :: _ => zip_rows (length c) cols end.

(** LoopBlock.keys (1244) of the loop that holds [key]; LoopBlock.__init__
    (1236) raises KeyError outside loops. *)
Definition loop_names (key : str) (b : block) : outcome (list str) := get_loop_names key b.

(** LoopBlock.__iter__ (1274-1281). *)
Definition loop_packets (key : str) (b : block) : outcome (list packet) :=
  obind (loop_names key b) (fun names =>
  obind (get_items names b) (fun vals =>
  obind (py_iters vals) (fun cols =>
  Ret (map (fun r => combine (map lower names) r) (py_zip cols))))).

(** [l[i]] *)
Definition py_index {A} (i : Z) (l : list A) : option A :=
  let n := Z.of_nat (length l) in
  if (i <? - n)%Z then None else nth_error l (Z.to_nat (if (i <? 0)%Z then i + n else i)%Z).

(** GetPacket (1320-1325). *)
Definition get_packet (key : str) (i : Z) (b : block) : outcome packet :=
  obind (loop_names key b) (fun names =>
  let fix go (ns : list str) : outcome packet :=
    match ns with
    | [] => Ret []
    | n :: r =>
        obind (get_item n b) (fun v =>
        obind (py_iter v) (fun l =>
        match py_index i l with
        | None => Raise IndexErr
        | Some x => obind (go r) (fun p => Ret ((n, x) :: p))
        end))
    end in
  go names).

(** AddPacket (1331-1335).  The column is the stored list itself, so [append]
    changes the block before the assignment is checked. *)
Definition append_stored (n : str) (x : value) (b : block) : block :=
  match dget str_eqb (lower n) (b_data b) with
  | Some (VList s, v) =>
      let e := if not_none (VList s) then (VList (s ++ [x]), v)
               else (VList s, match v with VList l => VList (l ++ [x]) | w => w end) in
      mkBlock (dset str_eqb (lower n) e (b_data b)) (b_loops b) (b_order b) (b_true b)
              (b_over b) (b_max b) (b_uni b)
  | _ => b
  end.
Fixpoint add_packet_go (names : list str) (p : packet) (b : block) : block * outcome unit :=
  match names with
  | [] => (b, Ret tt)
  | n :: r =>
      match get_item n b with
      | Raise e => (b, Raise e)
      | Ret (VList l) =>
          match p_attr n p with
          | Raise e => (b, Raise e)
          | Ret x =>
              match set_item n (VList (l ++ [x])) (append_stored n x b) with
              | (b', Raise e) => (b', Raise e)
              | (b', Ret _) => add_packet_go r p b'
              end
          end
      | Ret _ => (b, Raise AttributeErr)             (* no append *)
      end
  end.
Definition add_packet (key : str) (p : packet) (b : block) : block * outcome unit :=
  match loop_names key b with
  | Raise e => (b, Raise e)
  | Ret names => add_packet_go names p b
  end.

(** [x.lower()] *)
Definition py_lower (v : value) : outcome str :=
  match v with VStr s => Ret (lower s) | _ => Raise AttributeErr end.

(** [a for a in rows if test(a)] with tests that may raise. *)
Fixpoint ofilter {A} (f : A -> outcome bool) (l : list A) : outcome (list A) :=
  match l with
  | [] => Ret []
  | x :: r =>
      obind (f x) (fun t => obind (ofilter f r) (fun r' => Ret (if t then x :: r' else r')))
  end.

Definition the_one (ps : list packet) : outcome packet :=
  match ps with [p] => Ret p | _ => Raise ValueErr end.

(** GetKeyedPacket (2188-2203). *)
Definition get_keyed_packet (keyname : str) (keyvalue : value) (no_case : bool) (b : block)
  : outcome packet :=
  obind (loop_packets keyname b) (fun rows =>
  obind (ofilter (fun a =>
           obind (p_attr keyname a) (fun v =>
           if no_case then obind (py_lower v) (fun x => obind (py_lower keyvalue) (fun y => Ret (str_eqb x y)))
           else Ret (py_eq v keyvalue))) rows)
        the_one).

(** GetCompoundKeyedPacket (2209-2226).  [repr] is python's [str()] on values
    that are neither texts nor numbers. *)
Definition py_str (repr : value -> str) (v : value) : str :=
  match v with VStr s => s | VNum s => s | _ => repr v end.
Definition key_test (repr : value -> str) (k : str * (value * bool)) (a : packet) : outcome bool :=
  obind (p_attr (fst k) a) (fun v =>
  if snd (snd k) then Ret (str_eqb (lower (py_str repr v)) (lower (py_str repr (fst (snd k)))))
  else Ret (py_eq v (fst (snd k)))).
Fixpoint narrow (repr : value -> str) (keys : list (str * (value * bool))) (rows : list packet)
  : outcome (list packet) :=
  match keys with
  | [] => Ret rows
  | k :: r => obind (ofilter (key_test repr k) rows) (narrow repr r)
  end.
Definition get_compound_packet (repr : value -> str) (keys : list (str * (value * bool))) (b : block)
  : outcome packet :=
  match keys with
  | [] => Raise IndexErr
  | (k0, _) :: _ => obind (loop_packets k0 b) (fun rows => obind (narrow repr keys rows) the_one)
  end.

(** [l.index(x)] *)
Definition py_index_of (x : value) (l : list value) : option nat :=
  index_of (fun a b => py_eq b a) x l.

(** [del l[i]] *)
Definition del_at {A} (i : nat) (l : list A) : list A := firstn i l ++ skipn (Datatypes.S i) l.

(** One column of RemoveKeyedPacket (2376-2380): both stored versions are turned
    into lists and lose entry [i]; each step may raise after earlier ones took
    effect. *)
Definition set_entry (n : str) (e : value * value) (b : block) : block :=
  mkBlock (dset str_eqb n e (b_data b)) (b_loops b) (b_order b) (b_true b)
          (b_over b) (b_max b) (b_uni b).
Definition remove_row (n : str) (i : nat) (b : block) : block * outcome unit :=
  match dget str_eqb n (b_data b) with
  | None => (b, Raise KeyErr)
  | Some (s, v) =>
      match py_iter s with
      | Raise e => (b, Raise e)
      | Ret ls =>
          if Nat.leb (length ls) i then (set_entry n (VList ls, v) b, Raise IndexErr)
          else
            let s' := VList (del_at i ls) in
            match py_iter v with
            | Raise e => (set_entry n (s', v) b, Raise e)
            | Ret lv =>
                if Nat.leb (length lv) i then (set_entry n (s', VList lv) b, Raise IndexErr)
                else (set_entry n (s', VList (del_at i lv)) b, Ret tt)
            end
      end
  end.
Fixpoint remove_rows (ns : list str) (i : nat) (b : block) : block * outcome unit :=
  match ns with
  | [] => (b, Ret tt)
  | n :: r => match remove_row n i b with
              | (b', Raise e) => (b', Raise e)
              | (b', Ret _) => remove_rows r i b'
              end
  end.

(** RemoveKeyedPacket (2369-2380). *)
Definition remove_keyed_packet (keyname : str) (keyvalue : value) (b : block) : block * outcome unit :=
  match obind (get_item keyname b) py_iter with
  | Raise e => (b, Raise e)
  | Ret l =>
      match py_index_of keyvalue l with
      | None => (b, Raise ValueErr)
      | Some i =>
          match get_loop_names keyname b with
          | Raise e => (b, Raise e)
          | Ret names => remove_rows names i b
          end
      end
  end.
