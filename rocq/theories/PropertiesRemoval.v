(** C136: the check before an item is removed. *)
From Coq Require Import String Ascii List NArith Bool.
From Verif Require Import PyBase PyFacts StarBlockModel ValidateModel RemovalModel RemovalSpec RemovalProofs.
Import ListNotations.

(** An item may be removed exactly if none of its children is in the block. *)
Theorem C136_allowed : forall d name cs w, children d name cs -> (validate_remove d name w = Ret RTrue <-> forall c, In c cs -> ~ present w c).
Proof.
  intros d name cs w H. rewrite (remove_children d name cs w H). destruct (first_spec w cs) as [[F ->] | (a & c & b & -> & _ & P & ->)].
  - split; [|reflexivity]. intros _. now apply Forall_forall.
  - split; [discriminate|]. intros X. exfalso. apply (X c); [|exact P]. apply in_or_app. right. now left.
Qed.
(** Otherwise the first child in the block is named. *)
Theorem C136_refused : forall d name cs w, children d name cs -> (exists c, In c cs /\ present w c) ->
  exists a c b, cs = a ++ c :: b /\ Forall (fun c => ~ present w c) a /\ present w c /\ validate_remove d name w = Ret (RFalse [] [c]).
Proof.
  intros d name cs w H (c & I & P). rewrite (remove_children d name cs w H). destruct (first_spec w cs) as [[F _] | (a & x & b & E1 & E2 & E3 & ->)].
  - exfalso. rewrite Forall_forall in F. exact (F c I P).
  - exists a, x, b. split; [exact E1|]. split; [exact E2|]. split; [exact E3|reflexivity].
Qed.
(** An item without children, or without a definition, is not checked. *)
Theorem C136_childless : forall d name w, childless d name -> validate_remove d name w = Ret RNone.
Proof. exact remove_childless. Qed.

Definition link_defs (more : table) : list (str * table) :=
  [(u "_site.id", [(u "_item_linked.child_name", VList [VStr (u "_aniso.id"); VStr (u "_Bond.site")])]); (u "_aniso.id", more); (u "_bond.site", [])].
Definition linked (more : table) : cifdic := mkDic (link_defs more) [] [] [] [] [] [] (u "_item_linked.parent_name") (u "_item_linked.child_name") [] [] []
  (u "_item_related.function_code") (u "_item_related.related_name") [] [] [].
Definition two_items : table := [(u "_site.id", VStr (u "C1")); (u "_bond.site", VStr (u "C1"))].
Example C136_meets : children (linked []) (u "_Site.ID") [u "_aniso.id"; u "_Bond.site"] /\ childless (linked []) (u "_aniso.id") /\
  validate_remove (linked []) (u "_Site.ID") two_items = Ret (RFalse [] [u "_Bond.site"]) /\
  validate_remove (linked []) (u "_Site.ID") [(u "_site.id", VStr (u "C1"))] = Ret RTrue /\
  present two_items (u "_Bond.site").
Proof.
  split; [eexists _, _; split; [vm_compute; reflexivity|]; split; [vm_compute; reflexivity|right; reflexivity]|].
  split; [intros def; vm_compute; intros [= <-]; reflexivity|]. split; [vm_compute; reflexivity|]. split; [vm_compute; reflexivity|].
  exists (VStr (u "C1")). right. left. reflexivity.
Qed.

Definition old_name : table := [(u "_item_aliases.alias_name", VStr (u "_aniso_old_id"))].
Definition with_old : table := [(u "_site.id", VStr (u "C1")); (u "_aniso_old_id", VStr (u "C1"))].
(** Other names of the children are not looked for: an item may be removed whose child is in the block under an
    alias, although validate_child checks its values against it. *)
Theorem C136_alias_refuted : exists d name w alias cs, children d name cs /\ alternates_of d cs = Ret [alias] /\ present w alias /\ validate_remove d name w = Ret RTrue /\
  validate_child d name (VStr (u "other")) w [] [] = Ret (RFalse [VStr (u "C1")] [alias]).
Proof.
  exists (linked old_name), (u "_site.id"), with_old, (u "_aniso_old_id"), [u "_aniso.id"; u "_Bond.site"].
  split; [eexists _, _; split; [vm_compute; reflexivity|]; split; [vm_compute; reflexivity|right; reflexivity]|].
  split; [vm_compute; reflexivity|]. split; [exists (VStr (u "C1")); right; left; reflexivity|]. split; vm_compute; reflexivity.
Qed.

Definition removal_theorems := (C136_allowed, C136_refused, C136_childless, C136_alias_refuted).
Print Assumptions removal_theorems.
