(** Proofs for C136. *)
From Coq Require Import String Ascii List NArith Bool.
From Verif Require Import PyBase PyFacts StarBlockModel ValidateModel RemovalModel RemovalSpec.
Import ListNotations.

Lemma tmem_present : forall n w, tmem n w = true <-> present w n.
Proof.
  intros n w. unfold tmem, tget, present. split.
  - destruct (dget str_eqb (lower n) w) as [v|] eqn:E; [|discriminate]. intros _. exists v. now apply (dget_In str_eqb str_eqb_spec).
  - intros (v & I). destruct (dget str_eqb (lower n) w) as [x|] eqn:E; [reflexivity|]. exfalso. clear - I E.
    induction w as [|[k y] w IH]; [destruct I|]. cbn [dget] in E. destruct (str_eqb_spec (lower n) k) as [X|X]; [discriminate E|].
    destruct I as [Y | I]; [injection Y as Y _; congruence|]. exact (IH I E).
Qed.
Lemma texts_map : forall l, texts (map VStr l) = Ret l.
Proof. induction l as [|a l IH]; [reflexivity|]. unfold texts in *. cbn [map fold_right]. rewrite IH. reflexivity. Qed.
Lemma remove_children : forall d name cs w, children d name cs -> validate_remove d name w = Ret (first_child w cs).
Proof.
  intros d name cs w (def & v & E1 & E2 & H). unfold validate_remove, tget. rewrite E1, E2. unfold names_of.
  destruct H as [(c & -> & ->) | ->]; cbn [listify obind]; [reflexivity|]. rewrite texts_map. reflexivity.
Qed.
Lemma first_spec : forall w cs,
  (Forall (fun c => ~ present w c) cs /\ first_child w cs = RTrue) \/
  (exists a c b, cs = a ++ c :: b /\ Forall (fun c => ~ present w c) a /\ present w c /\ first_child w cs = RFalse [] [c]).
Proof.
  intros w. induction cs as [|c cs IH]; cbn [first_child].
  - left. split; [constructor|reflexivity].
  - destruct (tmem c w) eqn:E.
    + right. exists [], c, cs. split; [reflexivity|]. split; [constructor|]. split; [now apply tmem_present|reflexivity].
    + assert (N1 : ~ present w c) by (intros P; apply tmem_present in P; congruence).
      destruct IH as [[F ->] | (a & x & b & -> & F & P & ->)].
      * left. split; [now constructor|reflexivity].
      * right. exists (c :: a), x, b. split; [reflexivity|]. split; [now constructor|]. split; [exact P|reflexivity].
Qed.
Lemma remove_childless : forall d name w, childless d name -> validate_remove d name w = Ret RNone.
Proof.
  intros d name w H. unfold validate_remove, tget. destruct (dget str_eqb (lower name) (d_defs d)) as [def|] eqn:E; [|reflexivity].
  rewrite (H def E). reflexivity.
Qed.
