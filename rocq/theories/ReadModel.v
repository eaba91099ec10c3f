(** The semantic actions of the parser for the contents of a data block
    (src/YappsStarParser.nw 129-142, 356-401, 508-566).  No proofs here.

    The same actions are used by the grammars 1.0, 1.1, 2.0 and STAR2. *)
From Coq Require Import String Ascii List NArith ZArith Bool.
From Verif Require Import PyBase StarBlockModel.
Import ListNotations.

(** One entry of a data block as delivered by the grammar rules [datakvpair]
    and [top_loop] (372-401). *)
Inductive item :=
| Kv (name : str) (v : value)
| Lp (names : list str) (vals : list value).

(** [x == []] *)
Definition is_empty_list (v : value) : bool :=
  match v with VList [] | VSL [] => true | _ => false end.

(** [if itemlists[-1] == []: itemlists.pop(-1)] (131); an empty [itemlists] is an
    IndexError. *)
Fixpoint drop_last (l : list value) : list value :=
  match l with [] => [] | [_] => [] | x :: r => x :: drop_last r end.
Fixpoint last_of (l : list value) : option value :=
  match l with [] => None | [x] => Some x | _ :: r => last_of r end.

(** [l[j::k]] for k > 0: every k-th element from the j-th on. *)
Fixpoint stride (fuel k : nat) (l : list value) : list value :=
  match fuel, l with
  | Datatypes.S f, x :: _ => x :: stride f k (skipn k l)
  | _, _ => []
  end.
Definition slice_step (j k : nat) (l : list value) : list value :=
  stride (length l) k (skipn j l).

(** [for col_no in range(step_size): target_block.AddItem(...,precheck=True)] (134-135) *)
Fixpoint add_columns (j k : nat) (names : list str) (vals : list value) (b : block) : block * outcome unit :=
  match names with
  | [] => (b, Ret tt)
  | n :: r =>
      match add_item n (VList (slice_step j k vals)) true b with
      | (b', Raise e) => (b', Raise e)
      | (b', Ret _) => add_columns (Datatypes.S j) k r vals b'
      end
  end.

(** makeloop (129-142). *)
Definition makeloop (names : list str) (vals : list value) (b : block) : block * outcome unit :=
  match last_of vals with
  | None => (b, Raise IndexErr)
  | Some x =>
      let vals' := if is_empty_list x then drop_last vals else vals in
      match add_columns 0 (length names) names vals' b with
      | (b', Raise e) => (b', Raise e)
      | (b', Ret _) => create_loop names (-1) true b'
      end
  end.

(** Rule [data] (371-374, 529-532). *)
Definition read_item (it : item) (b : block) : block * outcome unit :=
  match it with
  | Kv n v => add_item n v true b
  | Lp ns vs => makeloop ns vs b
  end.

(** Rule [dataseq] (366-369); the first error ends the parse. *)
Fixpoint read_items (its : list item) (b : block) : block * outcome unit :=
  match its with
  | [] => (b, Ret tt)
  | it :: r =>
      match read_item it b with
      | (b', Raise e) => (b', Raise e)
      | (b', Ret _) => read_items r b'
      end
  end.

(** Rule [dblock] without save frames (357-364, 508-516): a fresh block that does
    not allow overwriting; at the end the length of all names is checked. *)
Definition read_block (its : list item) (b : block) : block * outcome unit :=
  match read_items its b with
  | (b', Raise e) => (b', Raise e)
  | (b', Ret _) => setmaxnamelength (b_max b') b'
  end.
