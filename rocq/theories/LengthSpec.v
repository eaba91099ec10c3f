(** Specification for C134: what it is for a block to be ready for output, and for a
    text to have a line that is too long.  Independent of the functions of the model. *)
From Coq Require Import String Ascii List NArith ZArith Bool.
From Verif Require Import PyBase StarBlockModel ScanModel FormatModel WriteModel LengthModel.
Import ListNotations.
Open Scope string_scope.
Open Scope list_scope.

(** The delimiters of texts: quotes, text fields and none; those of three characters only in the
    newer grammars. *)
Definition usable (g : grammar) (d : delim) : Prop :=
  d = None \/ d = Some (u "'") \/ d = Some [34%N] \/ d = Some [10%N; 59%N] \/
  (g = G20 \/ g = GS2) /\ (d = Some (u "'''") \/ d = Some [34%N; 34%N; 34%N]).
(** Between the elements of lists. *)
Definition separator (g : grammar) (old new : str) : Prop :=
  match g with GS2 => new = u ", " | G20 => new = u "  " | _ => new = old end.

(** A block [s] that is told how to write in grammar [g] with hints [hs]. *)
Definition told (g : grammar) (hs : list hint) (s s' : settings) : Prop :=
  (forall d, In d (z_delims s') <-> usable g d) /\ separator g (z_list s) (z_list s') /\ z_hints s' = hs.
Definition ready (g : grammar) (hs : list hint) (w m : Z) (s s' : settings) : Prop :=
  told g hs s s' /\ z_wrap s' = w /\ z_max s' = m.

(** More than [n] characters without the end of a line. *)
Definition too_long (n : nat) (text : str) : Prop :=
  exists a l b, text = a ++ l ++ b /\ ~ In 10%N l /\ (n < length l)%nat.
