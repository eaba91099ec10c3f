(** Specification vocabulary for the order of output. *)
From Coq Require Import String Ascii List NArith ZArith Bool Permutation.
From Verif Require Import PyBase StarBlockModel StarBlockSpec ReadModel FormatModel WriteModel ParseModel ReadSpec WriteSpec ParseSpec.
Import ListNotations.

(** The place of a dataname in the order of a block: its own, or that of its loop. *)
Definition place (b : block) (n : str) (x : oitem) : Prop :=
  In x (b_order b) /\ (x = ON n \/ exists k cols, x = OL k /\ In (k, cols) (b_loops b) /\ In n cols).
(** [l'] is what is left of [l] with the members of [P] only. *)
Definition those {A} (P : A -> Prop) (l l' : list A) : Prop :=
  exists keep, (forall x, In x l -> (keep x = true <-> P x)) /\ l' = filter keep l.
(** [x] is asked for before [y] in the list of names [req]. *)
Definition asked_before (b : block) (req : list str) (x y : oitem) : Prop :=
  exists r1 n r2, req = r1 ++ n :: r2 /\ place b n x /\ ~ place b n y /\ forall m, In m r1 -> ~ place b m y.
(** The columns of a loop, requested ones first. *)
Definition columns_asked (req cols cols' : list str) : Prop :=
  exists first rest, those (fun n => In n cols) req first /\ those (fun n => ~ In n req) cols rest /\ cols' = first ++ rest.
(** The block with its columns in the order asked for; everything else is the same. *)
Definition rearranged (req : list str) (b b' : block) : Prop :=
  b_data b' = b_data b /\ b_order b' = b_order b /\ b_true b' = b_true b /\
  Forall2 (fun x y => fst y = fst x /\ Permutation (snd y) (snd x) /\
             ((forall n, In n req -> ~ In n (snd x)) /\ snd y = snd x \/ columns_asked req (snd x) (snd y)))
    (b_loops b) (b_loops b').
(** Every entry of the order exactly once: first those asked for, as they are asked
    for, then the others as before. *)
Definition requested_first (req : list str) (b : block) (o : list oitem) : Prop :=
  Permutation o (b_order b) /\ exists new extras, o = new ++ extras /\
  (forall x, In x new <-> exists n, In n req /\ place b n x) /\
  (forall a x c y d, new = a ++ x :: c ++ y :: d -> asked_before b req x y) /\
  those (fun x => ~ In x new) (b_order b) extras.
(** What is read for the block [b] printed with the hints [hs]: the same values in
    the order and with the columns as asked for. *)
Definition reads_as (mx : Z) (un : bool) (hs : list hint) (b : block) (d : dblock) : Prop :=
  exists o rb bl, requested_first (requested_order hs) b o /\ rearranged (requested_order hs) b rb /\
    read_block (plain_items (d_contents d)) (empty_block false mx un) = (bl, Ret tt) /\ WF bl /\
    same_contents bl rb /\ Forall2 (same_place rb bl) o (b_order bl).
