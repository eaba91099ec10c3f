(** What a dictionary with imports contains, and what reading imports may do. *)
From Coq Require Import String Ascii List NArith PeanoNat Bool.
From Verif Require Import PyBase ValidateModel TreeSpec ImportModel ImportSpec ObtainModel.
Import ListNotations.
Open Scope nat_scope.

(** The definition of [key]: the own one, otherwise that of the first dictionary in the
    list of imports which has it at or below the imported head. *)
Inductive finds : sdic -> str -> table -> Prop :=
| f_own d key t : In (lower key, t) (s_own d) -> finds d key t
| f_import d key t : ~ In (lower key) (map fst (s_own d)) -> found (s_cache d) (s_imports d) key t -> finds d key t
with found : list (str * sdic) -> list (str * str) -> str -> table -> Prop :=
| f_here cache uri head r key one ht h t : In (uri, one) cache -> finds one head ht -> tget (u "_name.object_id") ht = Some (VStr h) ->
    under (s_own one) h key -> finds one key t -> found cache ((uri, head) :: r) key t
| f_next cache uri head r key one ht h t : In (uri, one) cache -> finds one head ht -> tget (u "_name.object_id") ht = Some (VStr h) ->
    ~ under (s_own one) h key -> found cache r key t -> found cache ((uri, head) :: r) key t.
(** Dictionaries whose imports can be followed, to depth [n]: trees of categories of
    height less than [depth], every import is cached and has its head, under its object id. *)
Inductive proper (depth : nat) : nat -> sdic -> Prop :=
| p_dic n d height : well_formed (s_own d) -> acyclic (s_own d) height -> (forall c, height c < depth) -> NoDup (map fst (s_cache d)) ->
    (forall uri one, In (uri, one) (s_cache d) -> proper depth n one) ->
    (forall uri head, In (uri, head) (s_imports d) -> exists one ht h, In (uri, one) (s_cache d) /\ finds one head ht /\ tget (u "_name.object_id") ht = Some (VStr h) /\ In (lower h) (map fst (s_own one))) ->
    proper depth (S n) d.

(** The entries to follow in a mode. *)
Definition selected (mode : str) (w : raw) (p : str) (r : gref) : Prop :=
  exists refs, In (p, refs) (w_refs w) /\ In r refs /\ (mode = u "All" \/ lower (match g_mode r with Some m => m | None => u "Contents" end) = lower mode).
(** The imported definitions as DicBlock sees them (C49). *)
Definition as_iref (r : gref) : iref :=
  mkIref (g_file r) (g_save r) (match g_miss r with Some m => m | None => u "Exit" end) (match g_mode r with Some m => m | None => u "Contents" end).
Definition as_blocks (d : list (str * table)) : list (str * dicblock) := map (fun kt => (fst kt, DicBlock (snd kt) None [])) d.
(** What an entry asks for, with the defaults of DDLm. *)
Definition asks_mode (r : gref) (m : string) : Prop := lower (match g_mode r with Some x => x | None => u "Contents" end) = u m.
Definition on_miss (r : gref) (m : string) : Prop := match g_miss r with Some x => x | None => u "Exit" end = u m.
Definition on_dupl (r : gref) (m : string) : Prop := match g_dupl r with Some x => x | None => u "Exit" end = u m.
(** The dictionary an entry is about: the one that was read for an earlier entry, or it
    is read now. *)
Definition at_hand (fetch : str -> outcome sdic) (st : ostate) (uri : str) (from : sdic) : Prop :=
  dget str_eqb uri (o_cache st) = Some from \/ (~ In uri (map fst (o_cache st)) /\ fetch uri = Ret from).
(** Nothing was imported. *)
Definition same (st st' : ostate) : Prop := o_defs st' = o_defs st /\ o_imports st' = o_imports st /\ o_contents st' = o_contents st.
