(** C125: standard uncertainties and DDLm dictionaries; C126: what a DDLm dictionary
    asks of a block. *)
From Coq Require Import String Ascii List NArith ZArith QArith Bool Lia.
From Verif Require Import PyBase StarBlockModel RegexModel NumberModel LoopSpec NumberSpec NumberProofs3 ValidateModel ValidateSpec ValidateProofs.
From Verif Require Import BlockCheckModel BlockCheckSpec TreeModel KeyModel ReportModel VerdictModel VerdictSpec VerdictProofs.
Import ListNotations.
Open Scope nat_scope.
Local Open Scope string_scope.

Notation X s := (VStr (u s)).
(** A DDLm dictionary (631-646) with the definitions [defs] and the table of
    uppermost categories [lookup]. *)
Definition ddlm (defs : list (str * table)) (lookup : list (str * str)) : cifdic :=
  mkDic defs [] (u "_type.contents") (u "_type.contents") (u "xxx") (u "_enumeration_set.state") (u "xxx") (u "_name.linked_item_id") (u "xxx") (u "_name.category_id")
    (u "xxx") (u "xxx") (u "xxx") (u "xxx") (u "_category_key.name") (u "xxx") lookup.
Definition num0 (q : Q) : value := VNum (u "0").
Definition def_item (cat type purpose : string) (more : table) : table :=
  ([(u "_name.category_id", X cat); (u "_type.contents", X type); (u "_type.container", X "Single"); (u "_type.purpose", X purpose)] ++ more)%list.

(** ** C125: standard uncertainties *)
(** Where the check applies: a value of a measurand is reported if it has no s.u., a
    value of any other number if it has one, and nothing else is; for a measurand
    nothing is reported for each value, otherwise the s.u.s are. *)
Theorem C125_su_exact num attr d name v def vs ty : dic_get d name = Ret def -> tget attr def = Some (VStr ty) -> number_kind ty -> held v vs -> (forall a, In a vs -> is_text a = true) ->
  exists x off bad, su_check num attr d name v = Ret x
  /\ offenders (fun a => if veq_text (tget (u "_type.purpose") def) (u "Measurand") then has_su a else ~ has_su a) vs off
  /\ Forall2 (fun a b : value => if veq_text (tget (u "_type.purpose") def) (u "Measurand") then b = VNone else exists q w : Q, b = num q /\ su_of a w /\ (q == w)%Q) off bad
  /\ (off = [] -> x = RTrue) /\ (off <> [] -> x = RFalse bad []).
Proof. exact (su_exact num attr d name v def vs ty). Qed.
(** Values of anything but numbers are left alone. *)
Theorem C125_su_other num attr d name v def : dic_get d name = Ret def -> (forall ty, tget attr def = Some (VStr ty) -> ~ number_kind ty) -> su_check num attr d name v = Ret RNone.
Proof. exact (su_other num attr d name v def). Qed.
Example C125_other_meets : exists d def, dic_get d (u "_cell.a") = Ret def /\ tget su_attribute def = Some (X "Range") /\ (forall ty, tget su_attribute def = Some (VStr ty) -> ~ number_kind ty).
Proof.
  exists (ddlm [(u "_cell.a", [(su_attribute, X "Range")])] []), [(su_attribute, X "Range")]. split; [reflexivity|]. split; [reflexivity|]. intros ty E N. injection E as <-. apply kinds in N. revert N. vm_compute.
  intros H. repeat (destruct H as [H|H]; [discriminate H|]). exact H.
Qed.
(** It does not apply to a definition without the attribute 'self.primitive_type'. *)
Theorem C125_su_not_applied num d name v def : dic_get d name = Ret def -> tget (u "self.primitive_type") def = None -> validate_item_esd_ddlm num d name v = Ret RNone.
Proof. exact (su_none num su_attribute d name v def). Qed.
Definition dic_su (attr : string) (purpose : string) : cifdic := ddlm [(u "_cell.a", def_item "cell" "Real" purpose [(u attr, X "Real")])] [].
Example C125_meets : exists d name v def vs ty, dic_get d name = Ret def /\ tget su_attribute def = Some (VStr ty) /\ number_kind ty /\ held v vs /\ (forall a, In a vs -> is_text a = true)
  /\ veq_text (tget (u "_type.purpose") def) (u "Measurand") = false /\ validate_item_esd_ddlm num0 d name v = Ret (RFalse [VNum (u "0"); VNum (u "0")] []).
Proof.
  exists (dic_su "self.primitive_type" "Number"), (u "_CELL.a"), (VList [X "1.2"; X "1.2(3)"; X "?"; X "4(1)"]). eexists _, _, (u "Real"). split; [vm_compute; reflexivity|]. split; [vm_compute; reflexivity|].
  split; [constructor|]. split; [constructor|]. split; [intros a [<-|[<-|[<-|[<-|[]]]]]; reflexivity|]. split; vm_compute; reflexivity.
Qed.
Example C125_example_measurand : validate_item_esd_ddlm num0 (dic_su "self.primitive_type" "Measurand") (u "_cell.a") (VList [X "1.2"; X "1.2(3)"; X "?"; X "4(1)"]) = Ret (RFalse [VNone; VNone] [])
  /\ validate_item_esd_ddlm num0 (dic_su "self.primitive_type" "Measurand") (u "_cell.a") (VList [X "1.2(3)"]) = Ret RTrue.
Proof. split; vm_compute; reflexivity. Qed.
(** The attribute is called _type.contents: a measurand without an s.u. and another
    number with one are not reported. *)
Theorem C125_su_refuted : exists d d' name v v', (exists def, dic_get d name = Ret def /\ tget (u "_type.contents") def = Some (X "Real") /\ tget (u "_type.purpose") def = Some (X "Measurand")) /\ ~ has_su v
  /\ (exists def, dic_get d' name = Ret def /\ tget (u "_type.contents") def = Some (X "Real") /\ tget (u "_type.purpose") def = Some (X "Number")) /\ has_su v'
  /\ forall num, validate_item_esd_ddlm num d name v = Ret RNone /\ validate_item_esd_ddlm num d' name v' = Ret RNone.
Proof.
  exists (dic_su "x" "Measurand"), (dic_su "x" "Number"), (u "_cell.a"), (X "1.2"), (X "1.2(3)"). split; [eexists; repeat split; vm_compute; reflexivity|].
  split; [destruct (su_decided (u "1.2")) as (e & G & [(q & w & H & _)|(_ & H)]); [|exact H]; vm_compute in G; injection G as <-; discriminate H|].
  split; [eexists; repeat split; vm_compute; reflexivity|].
  split; [destruct (su_decided (u "1.2(3)")) as (e & G & [(q & w & H & S & _)|(H & _)]); [now exists w|]; vm_compute in G; injection G as <-; discriminate H|].
  intros num. split; vm_compute; reflexivity.
Qed.
(** The check of containers never gives a verdict. *)
Theorem C125_container_refuted : forall d name v r, validate_item_container d name v = Ret r -> r = None.
Proof.
  intros d name v r. unfold validate_item_container. destruct (dic_get d name) as [def|]; [|discriminate]. cbn [obind]. destruct (tget _ def) as [c|]; [|discriminate].
  destruct (existsb _ _); [|intros H; now injection H as <-]. destruct (listify v); discriminate.
Qed.
Example C125_container_meets : validate_item_container (dic_su "x" "Number") (u "_cell.a") (X "1") = Raise NameErr
  /\ validate_item_container (ddlm [(u "_cell.a", [(u "_type.container", X "Table")])] []) (u "_cell.a") (X "1") = Ret None.
Proof. split; vm_compute; reflexivity. Qed.

(** ** C126: the verdict *)
(** A block passes exactly if its values are in the enumerations of their definitions,
    each loop has names of one uppermost category with a name of its key, and the
    attributes that are mandatory or prohibited in its scope are there or not. *)
Theorem C126_verdict num d tbl mand naughty t loops :
  (forall k v, In (k, v) t -> answerable_item d k v) -> (forall names, In names loops -> answerable_loop d tbl names) -> answerable_scope mand t -> answerable_scope naughty t ->
  exists valid rep, run_data_checks (ddlm_checks num d tbl mand naughty) t loops = Ret (valid, rep)
  /\ (valid = true <-> values_listed d t /\ (forall names, In names loops -> loop_fits d tbl names)
      /\ (forall a, names_for mand t a -> tget a t <> None) /\ (forall a, names_for naughty t a -> tget a t = None)).
Proof. exact (verdict_ok num d tbl mand naughty t loops). Qed.
(** The values of items that have no enumeration do not count. *)
Theorem C126_other_values num d tbl t t' loops valid valid' rep rep' :
  (forall k v, In (k, v) t -> answerable_item d k v) -> (forall k v, In (k, v) t' -> answerable_item d k v) -> (forall names, In names loops -> answerable_loop d tbl names) ->
  (forall k v l, enumerates d k l -> (In (k, v) t <-> In (k, v) t')) ->
  run_data_checks (ddlm_checks num d tbl [] []) t loops = Ret (valid, rep) -> run_data_checks (ddlm_checks num d tbl [] []) t' loops = Ret (valid', rep') -> valid = valid'.
Proof.
  intros H H' L S E E'. destruct (verdict_ok num d tbl [] [] t loops H L (or_introl eq_refl) (or_introl eq_refl)) as (v1 & r1 & E1 & V1). rewrite E in E1. injection E1 as <- <-.
  destruct (verdict_ok num d tbl [] [] t' loops H' L (or_introl eq_refl) (or_introl eq_refl)) as (v1 & r1 & E1 & V1'). rewrite E' in E1. injection E1 as <- <-.
  assert (values_listed d t <-> values_listed d t') as W. { split; intros K k v vs l a I En; apply (K k v vs l a); try exact En; now apply (S k v l En). }
  assert (valid = true <-> valid' = true) as B; [|destruct valid, valid'; try reflexivity; [symmetry|]; apply B; reflexivity]. rewrite V1, V1'. rewrite W.
  assert (forall t0 a, ~ names_for [] t0 a) as Z by (intros t0 a (s & n & _ & G & _); discriminate G). split; intros (A & B & _); (split; [exact A|]; split; [exact B|]); split; intros a N; elim (Z _ _ N).
Qed.
Definition dic_ex : cifdic := ddlm
  [(u "_atom.id", def_item "Atom" "Code" "Key" []); (u "_atom.kind", def_item "Atom" "Code" "State" [(u "_enumeration_set.state", VList [X "dum"; X "calc"])]);
   (u "_aniso.id", def_item "aniso" "Code" "Link" []); (u "_cell.a", def_item "cell" "Real" "Measurand" [(u "_enumeration.range", X "0.0:")])]
  [(u "atom", u "atom"); (u "aniso", u "atom")].
Definition keys_ex : keytable := [(u "atom", [[X "_atom.id"]; [X "_aniso.id"]]); (u "aniso", [[X "_aniso.id"]])].
Definition mand_ex : scopes := [(u "Item", [u "_cell.a"])].
Definition block_ex (kind : string) : table := [(u "_atom.id", VList [X "C1"; X "C2"]); (u "_atom.kind", VList [X "dum"; X kind]); (u "_aniso.id", VList [X "C1"; X "C2"]); (u "_cell.a", X "10.1(2)")].
Definition loop_ex : list str := [u "_aniso.id"; u "_atom.id"; u "_atom.kind"].
Lemma ex_items kind k v : In (k, v) (block_ex kind) -> answerable_item dic_ex k v.
Proof.
  intros [E|[E|[E|[E|[]]]]]; injection E as <- <-.
  - eexists _, _. split; [vm_compute; reflexivity|]. split; [constructor|]. split; [vm_compute; reflexivity|]. left. vm_compute. reflexivity.
  - eexists _, _. split; [vm_compute; reflexivity|]. split; [constructor|]. split; [vm_compute; reflexivity|]. right. exists [X "dum"; X "calc"]. eexists _, _. split; [vm_compute; reflexivity|]. split; [vm_compute; reflexivity|now left].
  - eexists _, _. split; [vm_compute; reflexivity|]. split; [constructor|]. split; [vm_compute; reflexivity|]. left. vm_compute. reflexivity.
  - eexists _, _. split; [vm_compute; reflexivity|]. split; [constructor|]. split; [vm_compute; reflexivity|]. left. vm_compute. reflexivity.
Qed.
Lemma ex_loop : answerable_loop dic_ex keys_ex loop_ex.
Proof.
  split; [discriminate|]. split.
  - intros a [<-|[<-|[<-|[]]]]; eexists _, _; split; vm_compute; reflexivity.
  - intros a p _ (def & c & _ & _ & G). exists [u "_atom.id"], [[X "_aniso.id"]].
    assert (p = u "atom") as ->; [|reflexivity]. cbn [dic_ex ddlm d_lookup dget] in G. destruct (str_eqb (lower c) (u "atom")); [now injection G as <-|]. destruct (str_eqb (lower c) (u "aniso")); [now injection G as <-|discriminate G].
Qed.
Example C126_meets : (forall kind k v, In (k, v) (block_ex kind) -> answerable_item dic_ex k v) /\ (forall names, In names [loop_ex] -> answerable_loop dic_ex keys_ex names)
  /\ (forall kind, answerable_scope mand_ex (block_ex kind))
  /\ run_data_checks (ddlm_checks num0 dic_ex keys_ex mand_ex []) (block_ex "calc") [loop_ex] = Ret (true, [])
  /\ run_data_checks (ddlm_checks num0 dic_ex keys_ex mand_ex mand_ex) (block_ex "Calc") [loop_ex]
     = Ret (false, [(u "_atom.kind", [(u "validate_item_enum", RFalse [X "Calc"] [])]); (u "whole_block", [(u "check_prohibited_items", RFalse [] [u "_cell.a"])])]).
Proof.
  split; [exact ex_items|]. split; [intros names [<-|[]]; exact ex_loop|]. split; [|split; vm_compute; reflexivity].
  intros kind. right. exists (u "Item"), [u "_cell.a"]. split; [apply is_default; vm_compute; reflexivity|reflexivity].
Qed.
Example C126_loops : run_data_checks (ddlm_checks num0 dic_ex keys_ex [] []) [] [[u "_atom.kind"]; [u "_atom.id"; u "_cell.a"]]
  = Ret (false, [(u "_atom.kind", [(u "validate_loop_key_ddlm", RFalse [] [u "_atom.id"])]); (u "_atom.id", [(u "validate_looping_ddlm", RFalse [] [u "_cell.a"])])]).
Proof. vm_compute. reflexivity. Qed.
(** The checks that run have the names that ReportModel.v gives reports for. *)
Example C126_installed num d tbl mand naughty : let ks := ddlm_checks num d tbl mand naughty in
  (map fst (k_item ks) ++ map fst (k_global ks) ++ map fst (k_loop ks) ++ map fst (k_block ks))%list = installed_ddlm.
Proof. reflexivity. Qed.
(** Neither the type nor the range of a value nor its container is looked at. *)
Theorem C126_type_refuted : exists d t def, dic_get d (u "_cell.a") = Ret def /\ tget (u "_type.contents") def = Some (X "Real") /\ tget (u "_type.container") def = Some (X "Single")
  /\ tget (u "_enumeration.range") def = Some (X "0.0:") /\ tget (u "_cell.a") t = Some (VList [X "abc"; X "-5"])
  /\ forall num tbl, run_data_checks (ddlm_checks num d tbl [] []) t [] = Ret (true, []).
Proof. exists dic_ex, [(u "_cell.a", VList [X "abc"; X "-5"])]. eexists. repeat split; vm_compute; reflexivity. Qed.

Definition verdict_theorems := (C125_su_exact, C125_su_other, C125_su_not_applied, C125_su_refuted, C125_container_refuted, C126_verdict, C126_other_values, C126_type_refuted).
Print Assumptions verdict_theorems.
