(** Specification vocabulary for whole files. *)
From Coq Require Import String Ascii List NArith ZArith Bool Permutation.
From Verif Require Import PyBase StarBlockModel ScanModel CollectionModel CollectionSpec ScanSpec ParseSpec FoldSpec.
Import ListNotations.

(** Comments: lines that are empty or start with a hash sign. *)
Definition comment_line (l : str) : Prop := l = [] \/ exists r, l = 35%N :: r /\ ~ In 10%N r /\ ~ In 13%N r.
Definition comment_text (s : str) : Prop :=
  exists ls, Forall comment_line ls /\ s = concat (map (fun l => l ++ [10%N]) ls).

(** Lines of a text. *)
Fixpoint join_lines (ls : list str) : str :=
  match ls with
  | [] => []
  | [l] => l
  | l :: r => l ++ [10%N] ++ join_lines r
  end.
Definition lines_of (s : str) (ls : list str) : Prop :=
  ls <> [] /\ Forall (fun l => ~ In 10%N l) ls /\ s = join_lines ls.

(** Lines within a limit; a limit of 0 or less is no limit. *)
Definition short_lines (maxlength : Z) (s : str) : Prop :=
  (0 < maxlength)%Z -> forall ls, lines_of s ls -> Forall (fun l => (Z.of_nat (length l) <= maxlength)%Z) ls.

(** Collections that are written so that they can be read back.  Names of blocks
    are recognised and not too long, and the key is the name in lower case;
    [maxn] is the limit on datanames for reading. *)
Definition name_limit (sd : standard) (maxn : Z) (e : pc) : Z :=
  match pc_parent e, sd with None, StdCif => 75 | None, _ => maxn | Some _, _ => 75 end.
Definition file_ready (maxout maxn : Z) (c : coll) : Prop :=
  CWF c /\ c_gram c <> GS2 /\ c_std c <> StdDic /\
  forall k e b, In (k, e) (c_child c) -> c_get k c = Ret b ->
    lower (pc_id e) = k /\ readable_heading (c_gram c) (pc_id e) /\ (length (pc_id e) <= 75)%nat /\
    good_block (c_gram c) maxout (name_limit (c_std c) maxn e) b.

(** The collection [c'] is what is left of [c] after writing and reading: the same
    names and contents; frames are directly inside the data block that they were
    in, in the order in which they are written. *)
Definition same_file (c c' : coll) : Prop :=
  Permutation (ckeys c') (ckeys c) /\
  (forall k, root c k -> entry_of c' k = entry_of c k) /\
  (forall r x, root c r -> below c r x ->
     exists i q, entry_of c x = Some (PC i q) /\ entry_of c' x = Some (PC i (Some r))) /\
  (exists tops frames,
     without (fun x => ~ root c x) (c_order c) tops /\
     (forall r, In r tops -> without (fun x => ~ below c r x) (c_order c) (frames r)) /\
     c_order c' = concat (map (fun r => r :: frames r) tops)) /\
  (forall k b, c_get k c = Ret b -> exists b', c_get k c' = Ret b' /\ StarBlockSpec.WF b' /\ same_read b b' /\
     Forall2 (same_place b b') (b_order b) (b_order b')).

(** The text before the first Ctrl-Z. *)
Definition truncated (s t : str) : Prop := ~ In 26%N t /\ (s = t \/ exists r, s = t ++ 26%N :: r).
(** The [n]th line is the first that is too long, counted from 1. *)
Definition first_long (maxlength : Z) (s : str) (n : nat) : Prop :=
  (0 < maxlength)%Z /\ exists before l after, lines_of s (before ++ l :: after) /\ n = Datatypes.S (length before) /\
    (maxlength < Z.of_nat (length l))%Z /\ Forall (fun x => (Z.of_nat (length x) <= maxlength)%Z) before.
