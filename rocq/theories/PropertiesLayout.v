(** The layout of the python text made for a dREL method (DrelModel), in the terms of LayoutSpec. *)
From Coq Require Import String Ascii List NArith PeanoNat Bool Lia.
From Verif Require Import PyBase DrelModel LayoutSpec LayoutProofs LayoutProofs2 LayoutProofs3 LayoutProofs4.
Import ListNotations.
Open Scope string_scope. Open Scope list_scope. Open Scope nat_scope.

(** * C78: blocks *)
(** The blocks that python finds by the indentation are those of the method. *)
Theorem C78_layout : forall l e st t st', flat_env e -> flat_sp st -> forallb flat_cs l = true ->
  traverse e (binput l) st = Ret (t, st') -> laid t (flat_map shape l).
Proof. intros l e st t st' FE FS S E. destruct (method_run e FE l S st t st' FS E) as [_ [L _]]. exact L. Qed.
(** A text has one layout at most. *)
Theorem C78_one_layout : forall t a b, laid t a -> laid t b -> a = b.
Proof. intros t a b A B. exact (block_det 0 _ _ A _ B). Qed.

(** A dictionary with one looped category. *)
Definition looped : env :=
  Env (Some (u "_a.target")) [(u "atom", [u "id"])] (fun c a => if str_eqb c (u "atom") && str_eqb a (u "x") then Ret (u "_atom.x") else Raise KeyErr)
      (fun _ => u "{'_atom.id', '_atom.x'}") (fun c => Ret (u "_atom.id")).
Definition start : sp := Sp [] [] [] [] [] false None false false.
Definition n (s : string) : cx := XName (u s).
Definition k (s : string) : cx := XLit (u s).
Definition assign (a : string) (c : cx) : small := MAssign [n a] (u "=") [c].
(** if (p < 1) { x = 1; y = 2 } else if (p > 2) { for i in q { print i; break } } else { repeat { next } }
    and the rows of a category, with a function that holds a condition. *)
Definition cond : cs :=
  CIf (XBin (u "<") (n "p") (k "1")) [CSimple [assign "x" (k "1"); assign "y" (k "2")]]
      [(XBin (u ">") (n "p") (k "2"), [CFor [u "i"] [n "q"] [CSimple [MPrint (n "i")]; CSimple [MBreak]]])]
      (Some [CRepeat [CSimple [MNext]]]).
Definition sample : list cs :=
  [cond; CLoop (u "a") (u "atom") [] (u ">") (u "2") [CSimple [assign "z" (XAttr (n "a") (u "x"))]; cond]; CFunc (u "f") [u "v"] [CDo (u "i") (k "1") (n "v") None [cond]]].
Lemma looped_flat : flat_env looped.
Proof.
  split; [|reflexivity| |].
  - intros c a x E. cbn [looped e_name] in E. destruct (_ && _); [|discriminate E]. injection E as <-. reflexivity.
  - intros c x E. injection E as <-. reflexivity.
  - intros c l [E|[]]. injection E as <- _. reflexivity.
Qed.
Lemma start_flat : flat_sp start.
Proof. split; intros ? ? ? ? []. Qed.
Example C78_meets : exists l e st t st', flat_env e /\ flat_sp st /\ forallb flat_cs l = true /\ traverse e (binput l) st = Ret (t, st') /\ l = sample.
Proof.
  assert (X : exists t st', traverse looped (binput sample) start = Ret (t, st')).
  { destruct (traverse looped (binput sample) start) as [[t st']|x] eqn:E; [eauto|]. exfalso.
    assert (Y : match traverse looped (binput sample) start with Ret _ => true | Raise _ => false end = true) by (vm_compute; reflexivity). rewrite E in Y. discriminate Y. }
  destruct X as (t & st' & E). exists sample, looped, start, t, st'. split; [exact looped_flat|]. split; [exact start_flat|]. split; [vm_compute; reflexivity|]. split; [exact E|reflexivity].
Qed.

(** A text of several lines within a block is another text: its lines are moved with the block. *)
Fixpoint starts_with (a s : str) : bool :=
  match a, s with [], _ => true | x :: a, y :: s => N.eqb x y && starts_with a s | _ :: _, [] => false end.
Fixpoint occurs (a s : str) : bool := (starts_with a s || match s with [] => false | _ :: r => occurs a r end)%bool.
Lemma starts_app a b : starts_with a (a ++ b) = true.
Proof. induction a as [|c a IH]; [reflexivity|]. cbn [app starts_with]. rewrite N.eqb_refl. exact IH. Qed.
Lemma occurs_app a x b : occurs a (x ++ a ++ b) = true.
Proof. induction x as [|c x IH]; [destruct a as [|c a]; [destruct b; reflexivity|]; cbn [app occurs]; change (c :: a ++ b) with ((c :: a) ++ b); rewrite starts_app; reflexivity|]. cbn [app occurs]. rewrite IH. apply orb_true_r. Qed.
Definition long : str := [34; 34; 34; 112; 10; 113; 34; 34; 34]%N.
Definition moved : str := [34; 34; 34; 112; 10; 32; 32; 32; 32; 113; 34; 34; 34]%N.
Theorem C78_text_refuted : exists l t st', l = [CIf (n "p") [CSimple [MAssign [n "x"] (u "=") [XLit long]]] [] None]
  /\ traverse looped (binput l) start = Ret (t, st') /\ (forall a b, t <> a ++ long ++ b) /\ exists a b, t = a ++ moved ++ b.
Proof.
  eexists _, _, _. split; [reflexivity|]. split; [vm_compute; reflexivity|]. split.
  - intros a b E. pose proof (occurs_app long a b) as O. rewrite <- E in O. vm_compute in O. discriminate O.
  - exists (u "if p:" ++ nl ++ u "    x = "). eexists. vm_compute. reflexivity.
Qed.

Definition layout_theorems := (C78_layout, C78_one_layout, C78_text_refuted).
Print Assumptions layout_theorems.
