(** What validating a file with save frames should do. *)
From Coq Require Import String Ascii List NArith ZArith Bool Permutation.
From Verif Require Import PyBase StarBlockModel StarBlockSpec ValidateModel ValidBlockModel ValidBlockSpec ReportModel ReportSpec CollectionModel CollectionSpec.
Import ListNotations.

(** The blocks named are checked, each once, on the items that the dictionary knows; they
    keep only these, and other blocks stay as they are. *)
Record checked (d : vdic) (keys : list str) (c c' : coll) (vr : list (str * (bool * report))) (nm : list (str * list str)) : Prop := mkChecked {
  ch_results : map fst vr = keys;
  ch_unknown : map fst nm = keys;
  ch_each : forall k b, In k keys -> c_get k c = Ret b -> exists b' r l, c_get k c' = Ret b' /\ only_known d b b' /\ In (k, r) vr /\ block_checks d b' = Ret r /\ (fst r = true <-> block_ok d b') /\ In (k, l) nm /\ unknown d b l;
  ch_others : forall k, In k (ckeys c) -> ~ In k keys -> c_get k c' = c_get k c;
  ch_names : ckeys c' = ckeys c /\ c_child c' = c_child c /\ c_order c' = c_order c
}.
Definition sound_blocks (c : coll) : Prop := forall k b, c_get k c = Ret b -> WF b /\ no_empty_loop b.
