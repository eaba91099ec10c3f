(** What the editing methods of a dictionary should do. *)
From Coq Require Import String Ascii List NArith Bool.
From Verif Require Import PyBase ValidateModel CollectionModel EditModel.
Import ListNotations.

(** A dictionary whose definitions are in save frames of the same names. *)
Record in_order (d : ddic) : Prop := InOrder {
  io_blocks : NoDup (map fst (k_blocks d));
  io_child : NoDup (map fst (k_child d));
  io_both : forall k, In k (map fst (k_child d)) <-> In k (map fst (k_blocks d));
  io_low : forall k, In k (map fst (k_blocks d)) -> lower k = k;
  io_ids : NoDup (map fst (k_ids d));
  io_own : forall k b, In (k, b) (k_ids d) -> lower b = k /\ In k (map fst (k_blocks d))
}.
(** [k] is the (lower-case) id of a definition with attributes [t]. *)
Definition says (d : ddic) (k : str) (t : table) : Prop :=
  In k (map fst (k_ids d)) /\ exists over, In (k, (t, over)) (k_blocks d).
(** The frame that a frame is in. *)
Definition within (d : ddic) (k : str) (p : option str) : Prop := exists i, In (k, PC i p) (k_child d).
Definition locked (d : ddic) : Prop := forall k, In k (map fst (k_ids d)) -> exists t, In (k, (t, false)) (k_blocks d).
(** A table with some attributes (of lower-case names) changed. *)
Definition changed (l : list (str * value)) (t t' : table) : Prop :=
  (forall a v, In (a, v) l -> tget a t' = Some v) /\ forall b, ~ In (lower b) (map fst l) -> tget b t' = tget b t.
(** Frames that were in [old] are in [new]. *)
Definition follow (old new : str) (p : option str) : option str :=
  match p with Some q => if list_eq_dec N.eq_dec q old then Some new else p | None => None end.
(** Categories are texts. *)
Definition texts (d : ddic) : Prop := forall k t v, says d k t -> tget (u "_name.category_id") t = Some v -> exists s, v = VStr s.
(** [a] names [c] as its category. *)
Definition member (d : ddic) (c a : str) : Prop := exists t s, says d a t /\ tget (u "_name.category_id") t = Some (VStr s) /\ lower s = c.
Definition catdef (d : ddic) (c : str) : Prop := exists t, says d c t /\ tget (u "_definition.scope") t = Some (VStr (u "Category")).
Definition itemdef (t : table) : Prop := tget (u "_definition.scope") t = None \/ tget (u "_definition.scope") t = Some (VStr (u "Item")).
(** What goes when [c] is removed: [c], and if it is a category what its members
    take with them. *)
Inductive goes (d : ddic) : str -> str -> Prop :=
| g_self c : goes d c c
| g_deep c a k : catdef d c -> member d c a -> goes d a k -> goes d c k.
(** Every definition says its own id. *)
Definition ids_agree (d : ddic) : Prop := forall k t, says d k t -> exists s, tget (u "_definition.id") t = Some (VStr s) /\ lower s = k.
(** What becomes of a member of a category that is renamed. *)
Inductive moved (new a : str) (t : table) : str -> table -> Prop :=
| mv_item o t' : itemdef t -> tget (u "_name.object_id") t = Some (VStr o) ->
    changed [(u "_name.category_id", VStr new); (u "_definition.id", VStr (u "_" ++ new ++ u "." ++ o))] t t' ->
    moved new a t (lower (new ++ u "." ++ o)) t'
| mv_cat t' : ~ itemdef t -> changed [(u "_name.category_id", VStr new)] t t' -> moved new a t a t'.
(** The items of a category have objects, and these differ. *)
Definition objects (d : ddic) (c : str) : Prop :=
  (forall a t, member d c a -> says d a t -> itemdef t -> exists o, tget (u "_name.object_id") t = Some (VStr o)) /\
  forall a b ta tb oa ob, member d c a -> member d c b -> says d a ta -> says d b tb -> itemdef ta -> itemdef tb ->
    tget (u "_name.object_id") ta = Some (VStr oa) -> tget (u "_name.object_id") tb = Some (VStr ob) -> lower oa = lower ob -> a = b.
(** No definition has frames inside. *)
Definition flat (d : ddic) : Prop := forall k x, In k (map fst (k_ids d)) -> ~ within d x (Some k).
(** Categories say their ids, and no definition has the empty id. *)
Definition named (d : ddic) : Prop := (forall c t, says d c t -> catdef d c -> exists s, tget (u "_definition.id") t = Some (VStr s)) /\ ~ In [] (map fst (k_ids d)).
(** No category is below itself. *)
Definition well_founded_cats (d : ddic) (height : str -> nat) : Prop := forall c a, catdef d c -> member d c a -> (height a < height c)%nat.
(** The category that a new category is put in. *)
Definition chosen (d : ddic) (parent : option str) (dangler : bool) (cat : value) : Prop :=
  match parent, dangler with
  | Some p, true => cat = VStr p
  | Some p, false => exists t, says d (lower p) t /\ tget (u "_name.object_id") t = Some cat
  | None, _ => exists h t, (forall k s, says d k s -> (tget (u "_definition.class") s = Some (VStr (u "Head")) <-> k = h)) /\ says d h t /\ tget (u "_name.object_id") t = Some cat
  end.
(** The object that a name given for a new item stands for: what follows the last
    period, without underscores at its ends. *)
Definition names_object (item obj : str) : Prop :=
  exists pre a b, (item = a ++ obj ++ b \/ item = pre ++ 46%N :: a ++ obj ++ b) /\ Forall (eq 95%N) a /\ Forall (eq 95%N) b
    /\ ~ In 46%N obj /\ hd_error obj <> Some 95%N /\ hd_error (rev obj) <> Some 95%N.
