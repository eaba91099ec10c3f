(** Model of StarBlock.merge (src/StarFile.nw 3131-3211).

    Not modelled: merging a block with itself; that the merged values are shared
    between the two blocks (values are immutable here); the code after the raise
    in overlay mode. *)
From Coq Require Import String Ascii List NArith ZArith Bool.
From Verif Require Import PyBase StarBlockModel.
Import ListNotations.

Inductive merge_mode := MStrict | MReplace | MOverlay | MOther.

(** self[key] = new_block[key] *)
Definition copy_item (nb : block) (k : str) (b : block) : block * outcome unit :=
  match get_item k nb with
  | Raise e => (b, Raise e)
  | Ret v => set_item k v b
  end.
(** The loop over the keys in strict mode (3134-3138). *)
Fixpoint strict_items (exc keys : list str) (nb b : block) : block * outcome unit :=
  match keys with
  | [] => (b, Ret tt)
  | k :: r =>
      if has_key k b && negb (mem str_eqb k exc) then (b, Raise StarErr)
      else if negb (mem str_eqb k exc) then
        match copy_item nb k b with
        | (b', Raise e) => (b', Raise e)
        | (b', Ret _) => strict_items exc r nb b'
        end
      else strict_items exc r nb b
  end.
(** The loop over the keys in replace mode (3152-3154). *)
Fixpoint replace_items (keys : list str) (nb b : block) : block * outcome unit :=
  match keys with
  | [] => (b, Ret tt)
  | k :: r =>
      match copy_item nb k b with
      | (b', Raise e) => (b', Raise e)
      | (b', Ret _) => replace_items r nb b'
      end
  end.
(** for one_loop in new_block.loops.values(): self.CreateLoop(one_loop) (3141-3142,
    3156-3157) *)
Fixpoint copy_loops (ls : list (Z * list str)) (b : block) : block * outcome unit :=
  match ls with
  | [] => (b, Ret tt)
  | (_, cols) :: r =>
      match create_loop cols (-1) true b with
      | (b', Raise e) => (b', Raise e)
      | (b', Ret _) => copy_loops r b'
      end
  end.
(** self.true_case.update(new_block.true_case) (3144, 3159) *)
Definition update_case (nb b : block) : block :=
  mkBlock (b_data b) (b_loops b) (b_order b)
    (fold_left (fun d kt => dset str_eqb (fst kt) (snd kt) d) (b_true nb) (b_true b))
    (b_over b) (b_max b) (b_uni b).
Definition loops_and_case (nb : block) (x : block * outcome unit) : block * outcome unit :=
  match x with
  | (b1, Raise e) => (b1, Raise e)
  | (b1, Ret _) =>
      match copy_loops (b_loops nb) b1 with
      | (b2, Raise e) => (b2, Raise e)
      | (b2, Ret _) => (update_case nb b2, Ret tt)
      end
  end.
(** merge (3131-3163).  In replace mode the list of keys without the excepted ones is
    made but not used (3146-3151). *)
Definition block_merge (mode : merge_mode) (exc : list str) (nb b : block) : block * outcome unit :=
  match mode with
  | MStrict => loops_and_case nb (strict_items exc (b_keys nb) nb b)
  | MReplace => loops_and_case nb (replace_items (b_keys nb) nb b)
  | MOverlay => (b, Raise StarErr)
  | MOther => (b, Ret tt)
  end.
