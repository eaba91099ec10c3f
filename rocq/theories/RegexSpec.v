(** What a regular expression matches, without regard to the order in which
    python tries the possibilities: [lang r c t] says that r matches the text c
    when it is followed by t. *)
From Coq Require Import List NArith Bool.
From Verif Require Import PyBase RegexModel.
Import ListNotations.

Inductive reps (L : list N -> list N -> Prop) : list N -> list N -> Prop :=
| reps_nil t : reps L [] t
| reps_cons c1 c2 t : L c1 (c2 ++ t) -> reps L c2 t -> reps L (c1 ++ c2) t.
Fixpoint lang (r : re) (c t : list N) : Prop :=
  match r with
  | REps => c = []
  | RChr p => exists x, c = [x] /\ p x = true
  | RSeq a b => exists c1 c2, c = c1 ++ c2 /\ lang a c1 (c2 ++ t) /\ lang b c2 t
  | RAlt a b => lang a c t \/ lang b c t
  | RStar a | RLazy a => reps (lang a) c t
  | RAhead a => c = [] /\ exists c1 t1, t = c1 ++ t1 /\ lang a c1 t1
  | RNot a => c = [] /\ forall c1 t1, t = c1 ++ t1 -> ~ lang a c1 t1
  | REol => c = [] /\ (t = [] \/ exists t', t = 10%N :: t')
  | REnd => c = [] /\ (t = [] \/ t = [10%N])
  end.
