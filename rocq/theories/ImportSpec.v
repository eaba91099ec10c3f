(** Attributes through imports, and what a full import gives. *)
From Coq Require Import String Ascii List NArith Bool.
From Verif Require Import PyBase ValidateModel TreeSpec ImportModel.
Import ListNotations.

(** The definition an entry refers to. *)
Definition target_of (cache : list (str * list (str * dicblock))) (r : iref) (t : dicblock) : Prop :=
  exists f dic k, r_file r = Some f /\ dget str_eqb f cache = Some dic /\ r_save r = Some k /\ dget str_eqb (lower k) dic = Some t.
(** The entry names a file that is cached and a frame of it that is there, or need
    not be. *)
Definition resolves (cache : list (str * list (str * dicblock))) (r : iref) : Prop :=
  exists f dic k, r_file r = Some f /\ dget str_eqb f cache = Some dic /\ r_save r = Some k /\ (dget str_eqb (lower k) dic = None -> r_miss r <> u "Exit").
(** The entry gives the attribute a value. *)
Definition gives (cache : list (str * list (str * dicblock))) (r : iref) (name : str) (v : value) : Prop :=
  exists t, target_of cache r t /\ lower (r_mode r) = u "contents" /\ dget str_eqb (lower name) (b_attrs t) = Some v.
(** Everything that is imported, at any depth up to [n], resolves. *)
Fixpoint ready (n : nat) (b : dicblock) : Prop :=
  match n with
  | O => False
  | Datatypes.S n' => forall refs, b_imports b = Some refs -> b_cache b <> [] ->
      forall r, In r refs -> resolves (b_cache b) r /\ forall t, target_of (b_cache b) r t -> ready n' t
  end.
(** The last entry that gives the attribute a value gives it this one. *)
Definition last_gives (cache : list (str * list (str * dicblock))) (refs : list iref) (name : str) (v : value) : Prop :=
  exists l r l', refs = l ++ r :: l' /\ gives cache r name v /\ forall r' v', In r' l' -> ~ gives cache r' name v'.

(** ** Full import of a head into a head *)
(** Where a definition of the result comes from: own ones win. *)
Definition source (d from : list (str * table)) (head a : str) (t : table) : Prop :=
  In (a, t) d \/ (~ In a (map fst d) /\ In (a, t) from /\ under from head a).
(** It names the head as its category. *)
Definition names_head (head : str) (t : table) : Prop := exists s, tget (u "_name.category_id") t = Some (VStr s) /\ lower s = lower head.
(** [t'] is [t] with category [m] if it named the imported head, and without the
    import statement if it is the importing definition. *)
Definition moved (head m parent a : str) (t t' : table) : Prop :=
  (forall x, lower x <> u "_import.get" -> lower x <> u "_name.category_id" -> tget x t' = tget x t)
  /\ (names_head head t -> tget (u "_name.category_id") t' = Some (VStr m))
  /\ (~ names_head head t -> tget (u "_name.category_id") t' = tget (u "_name.category_id") t)
  /\ tget (u "_import.get") t' = (if str_eqb a parent then None else tget (u "_import.get") t).
(** A dictionary whose definitions are stored under their ids. *)
Definition ids_are_keys (d : list (str * table)) : Prop := forall k t, In (k, t) d -> exists i, tget (u "_definition.id") t = Some (VStr i) /\ lower i = k.
Definition has (d : list (str * table)) (k attr s : str) : Prop := exists t, In (k, t) d /\ tget attr t = Some (VStr s).
