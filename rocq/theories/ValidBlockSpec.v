(** What a block that checks its items should guarantee. *)
From Coq Require Import String Ascii List NArith ZArith Bool.
From Verif Require Import PyBase StarBlockModel ValidateModel ValidBlockModel.
Import ListNotations.

Definition is_false (r : result) : Prop := exists v l, r = RFalse v l.
Definition passed (o : outcome result) : Prop := exists r, o = Ret r /\ ~ is_false r.
(** The table that the checks see: the items of the block with their values. *)
Definition shows (b : block) (t : table) : Prop :=
  Forall2 (fun k kv => fst kv = k /\ get_item k b = Ret (snd kv)) (b_keys b) t.
Definition item_ok (d : vdic) (k : str) (v : value) : Prop :=
  v_in d k = true -> forall n f, In (n, f) (v_item d) -> passed (f k v).
Definition global_ok (d : vdic) (k : str) (v : value) (b : block) : Prop :=
  v_in d k = true -> exists t, shows b t /\ forall n f, In (n, f) (v_global d) -> passed (f k v t []).
(** Checks that do not depend on the spelling of the name. *)
Definition case_blind (d : vdic) : Prop := forall k k', lower k = lower k' ->
  v_in d k = v_in d k' /\ forall n f v, In (n, f) (v_item d) -> f k v = f k' v.
(** Every item of the block passes the checks of single items. *)
Definition items_valid (d : vdic) (b : block) : Prop := forall k v, get_item k b = Ret v -> item_ok d k v.
Definition sound (d : vdic) (b : block) : Prop := NoDup (b_keys b) /\ items_valid d b.
(** Everything the constructor checks. *)
Definition block_ok (d : vdic) (b : block) : Prop := exists t, shows b t
  /\ (forall k v, In (k, v) t -> (forall n f, In (n, f) (v_item d) -> passed (f k v)) /\ (forall n f, In (n, f) (v_global d) -> passed (f k v t [])))
  /\ (forall k cols, In (k, cols) (b_loops b) -> forall n f, In (n, f) (v_loop d) -> passed (f cols))
  /\ (forall n f, In (n, f) (v_block d) -> passed (f t)).
