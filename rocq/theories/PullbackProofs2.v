(** Pullbacks, filters, and the way back. *)
From Coq Require Import String Ascii List NArith ZArith Bool PeanoNat Lia DecimalString DecimalNat.
From Verif Require Import PyBase PyFacts StarBlockModel StarBlockSpec LoopModel LoopSpec LoopProofs ValidateModel TreeModel DeriveModel DeriveSpec DeriveProofs DeriveProofs3 DeriveProofs4 DeriveProofs5 DeriveProofs6 PullbackSpec PullbackProofs.
Import ListNotations.
Open Scope nat_scope.

Lemma names_list t a l : tget a t = Some (VList (map VStr l)) -> names_of_attr t a = Ret l.
Proof.
  intros E. unfold names_of_attr, attr. rewrite E. cbn [obind iter]. clear E. induction l as [|x l IH]; [reflexivity|]. cbn [map maps]. rewrite IH. reflexivity.
Qed.
Lemma merged_app_new acc cols : NoDup (map fst acc ++ map fst cols) -> merged acc (merged [] cols) = acc ++ cols.
Proof.
  intros N. rewrite (merged_new [] cols). { now apply merged_new. } cbn [map app]. now apply NoDup_app_iff in N as (_ & N & _).
Qed.
Lemma combine_fst_In (keys vals : list value) x v : In (x, v) (combine keys vals) -> In x keys.
Proof. apply in_combine_l. Qed.
Lemma unique_refl keys x : unique keys -> In x keys -> same_value x x.
Proof. intros U I. apply In_nth_error in I as [i I]. now apply (U i i x x I I). Qed.
Lemma pulled_known0 k0 v0 rows1 : unique k0 -> known k0 (map fst (pulled (combine k0 v0) rows1)).
Proof.
  intros U x I. apply in_map_iff in I as ([x' y] & <- & I). cbn [fst]. apply pulled_In in I as (v & w & I & _ & _). apply in_combine_l in I. exists x'. split; [exact I|now apply (unique_refl k0)].
Qed.
Lemma pulled_known1 rows0 k1 v1 : unique k1 -> known k1 (map snd (pulled rows0 (combine k1 v1))).
Proof.
  intros U x I. apply in_map_iff in I as ([x' y] & <- & I). cbn [snd]. apply pulled_In in I as (v & w & _ & I & _). apply in_combine_l in I. exists y. split; [exact I|now apply (unique_refl k1)].
Qed.

(** ** Pullback *)
Section Pullback.
Variables (d : ddict) (ask : str -> act value) (b : block) (cat m0 m1 o0 o1 f0 f1 c0 c1 k0 k1 : str) (t t0 t1 : table) (v0 v1 keys0 keys1 : list value) (cs0 cs1 : list copied).
Hypotheses (D : def_of d cat = Ret t) (TY : tget c_type t = Some (VStr (u "Pullback")))
  (CO : tget c_components t = Some (VList [VStr m0; VStr m1])) (NI : tget c_new_ids t = Some (VList [VStr o0; VStr o1]))
  (M0 : category_of d m0 = Ret c0) (M1 : category_of d m1 = Ret c1)
  (D0 : def_of d c0 = Ret t0) (D1 : def_of d c1 = Ret t1) (K0 : tget key_id t0 = Some (VStr k0)) (K1 : tget key_id t1 = Some (VStr k1))
  (O0 : dd_object d cat o0 = Ret f0) (O1 : dd_object d cat o1 = Ret f1)
  (A0 : ask m0 b = (b, Ok (VList v0))) (A1 : ask m1 b = (b, Ok (VList v1))) (B0 : ask k0 b = (b, Ok (VList keys0))) (B1 : ask k1 b = (b, Ok (VList keys1)))
  (U0 : unique keys0) (U1 : unique keys1) (L0 : length v0 = length keys0) (L1 : length v1 = length keys1)
  (P0 : projected d c0 cat [o0; o1] = Ret (map cp_name cs0)) (P1 : projected d c1 cat [o0; o1] = Ret (map cp_name cs1))
  (F0 : Forall (can_copy d ask b c0 cat keys0) cs0) (F1 : Forall (can_copy d ask b c1 cat keys1) cs1)
  (ND : NoDup (f0 :: f1 :: map cp_to cs0 ++ map cp_to cs1)).
Let rows := pulled (combine keys0 v0) (combine keys1 v1).
Lemma pull_sides : sides d ask t true b = (b, Ok ([c0; c1], [VList v0; VList v1], [keys0; keys1])).
Proof.
  unfold sides. rewrite (lift_eq _ _ _ [m0; m1]) by now apply names_list. erewrite bind_eq.
  2:{ cbn [mapa]. erewrite bind_eq by exact A0. erewrite bind_eq; [reflexivity|]. erewrite bind_eq by exact A1. erewrite bind_eq; reflexivity. }
  rewrite (lift_eq _ _ _ [c0; c1]) by (cbn [maps]; now rewrite M0, M1). rewrite (lift_eq _ _ _ [k0; k1]).
  2:{ cbn [maps]. rewrite (source_key_ok d c0 t0 k0 D0 K0), (source_key_ok d c1 t1 k1 D1 K1). reflexivity. }
  erewrite bind_eq. 2:{ cbn [mapa]. erewrite bind_eq. 2:{ erewrite bind_eq by exact B0. reflexivity. } erewrite bind_eq; [reflexivity|]. erewrite bind_eq. 2:{ erewrite bind_eq by exact B1. reflexivity. } erewrite bind_eq; reflexivity. }
  reflexivity.
Qed.
Lemma pull_columns : exists cols0 cols1, columns d ask cat t true [c0; c1] rows b = (b, Ok ([(f0, VList (map fst rows)); (f1, VList (map snd rows))] ++ cols0 ++ cols1)) /\
  Forall2 (follows keys0 (map fst rows)) cs0 cols0 /\ Forall2 (follows keys1 (map snd rows)) cs1 cols1.
Proof.
  destruct (duplicate_rows d ask b c0 cat [o0; o1] cs0 t0 k0 P0 D0 K0 keys0 (map fst rows) B0 (pulled_known0 _ _ _ U0) F0) as (cols0 & E0 & Q0).
  destruct (duplicate_rows d ask b c1 cat [o0; o1] cs1 t1 k1 P1 D1 K1 keys1 (map snd rows) B1 (pulled_known1 _ _ _ U1) F1) as (cols1 & E1 & Q1).
  pose proof (follows_names _ _ _ _ Q0) as N0. pose proof (follows_names _ _ _ _ Q1) as N1. exists cols0, cols1. split; [|split; assumption].
  assert (str_eqb f1 f0 = false) as NE. { destruct (str_eqb_spec f1 f0) as [->|]; [|reflexivity]. inversion ND as [|? ? X _]. exfalso. apply X. now left. }
  assert (str_eqb f0 f1 = false) as NE'. { destruct (str_eqb_spec f0 f1) as [->|]; [|reflexivity]. rewrite str_eqb_refl in NE. discriminate. }
  unfold columns. rewrite (lift_eq _ _ _ [o0; o1]) by now apply names_list. rewrite (lift_eq _ _ _ [f0; f1]) by (cbn [maps]; now rewrite O0, O1). rewrite (lift_eq _ _ _ f0) by reflexivity.
  erewrite lift_eq by reflexivity. cbn [dset]. rewrite NE. rewrite (lift_eq _ _ _ c0) by reflexivity. rewrite (lift_eq _ _ _ (map fst rows)) by (cbn [dget]; rewrite str_eqb_refl; reflexivity).
  erewrite bind_eq by exact E0. rewrite merged_app_new. 2:{ cbn [map fst app]. rewrite N0. change (NoDup ((f0 :: f1 :: map cp_to cs0) ++ map cp_to cs1)) in ND. now apply NoDup_app_iff in ND as (ND & _ & _). }
  rewrite (lift_eq _ _ _ c1) by reflexivity. rewrite (lift_eq _ _ _ (map snd rows)) by (cbn [in_range nth_error obind app dget]; rewrite NE, str_eqb_refl; reflexivity).
  erewrite bind_eq by exact E1. rewrite merged_app_new. 2:{ rewrite map_app. cbn [map fst app]. rewrite N0, N1. exact ND. }
  rewrite <- app_assoc. reflexivity.
Qed.
Theorem pull_construct : exists cols0 cols1, let result := [(f0, VList (map fst rows)); (f1, VList (map snd rows))] ++ cols0 ++ cols1 in
  construct d ask cat b = match rows with [] => (b, Ok []) | _ => match store_cat d (VDict result) cat b with (b1, Ok _) => (b1, Ok result) | (b1, Err x) => (b1, Err x) end end /\
  Forall2 (follows keys0 (map fst rows)) cs0 cols0 /\ Forall2 (follows keys1 (map snd rows)) cs1 cols1.
Proof.
  destruct pull_columns as (cols0 & cols1 & E & Q). exists cols0, cols1. split; [|exact Q]. unfold construct. rewrite (lift_eq _ _ _ t D), TY. cbv zeta.
  change (veq_text (Some (VStr (u "Pullback"))) (u "Pullback")) with true. cbn [orb]. erewrite bind_eq by exact pull_sides. cbn [fst snd].
  rewrite (lift_eq _ _ _ rows) by now apply pullback_ids_ok. destruct rows as [|r rs]; [reflexivity|]. erewrite bind_eq by exact E. reflexivity.
Qed.
End Pullback.

(** ** Filter *)
Lemma u_inj a b : u a = u b -> a = b.
Proof.
  revert b. induction a as [|c a IH]; intros [|c' b]; cbn [u]; try discriminate; [reflexivity|]. intros [= E F]. apply (f_equal ascii_of_N) in E. rewrite !ascii_N_embedding in E. subst c'. f_equal. now apply IH.
Qed.
Lemma numbers_unique n : unique (numbers n).
Proof.
  intros i j x y. unfold numbers. rewrite !nth_error_map. destruct (nth_error (seq 0 n) i) as [a|] eqn:A; [|discriminate]. destruct (nth_error (seq 0 n) j) as [c|] eqn:B; [|discriminate]. cbn [option_map]. intros [= <-] [= <-].
  assert (a = i) as ->. { apply nth_error_nth with (d := 0) in A as A'. rewrite <- A'. rewrite seq_nth; [reflexivity|]. rewrite <- (seq_length n 0). apply nth_error_Some. congruence. }
  assert (c = j) as ->. { apply nth_error_nth with (d := 0) in B as B'. rewrite <- B'. rewrite seq_nth; [reflexivity|]. rewrite <- (seq_length n 0). apply nth_error_Some. congruence. }
  split; [|intros ->; constructor]. intros S. apply py_eq_spec in S. cbn [py_eq] in S. destruct (str_eqb_spec (u (NilEmpty.string_of_uint (Nat.to_uint i))) (u (NilEmpty.string_of_uint (Nat.to_uint j)))) as [E1|]; [|discriminate]. apply u_inj in E1. apply (f_equal NilEmpty.uint_of_string) in E1. rewrite !NilEmpty.usu in E1. injection E1 as E1. now apply Unsigned.to_uint_inj in E1.
Qed.

Lemma numbers_length n : length (numbers n) = n.
Proof. unfold numbers. now rewrite map_length, seq_length. Qed.
Lemma simple_eq v w : simple w -> py_eq v w = true -> v = w.
Proof. intros (s & [-> | ->]) E; destruct v as [x|x| |x|x|x]; cbn [py_eq] in E; try discriminate E; destruct (str_eqb_spec x s) as [->|]; try discriminate E; reflexivity. Qed.
(** Each row once, if no filter value is given twice. *)
Lemma pulled_filter rows0 ns fvals : NoDup fvals -> Forall simple fvals -> length ns = length fvals ->
  map fst (pulled rows0 (combine ns fvals)) = map fst (filter (fun r => existsb (py_eq (snd r)) fvals) rows0).
Proof.
  intros N S L. induction rows0 as [|[x v] rows0 IH]; [reflexivity|]. unfold pulled. cbn [flat_map]. fold (pulled rows0 (combine ns fvals)). rewrite map_app, IH. cbn [filter fst snd].
  assert (map fst (map (fun s : value * value => (x, fst s)) (filter (fun s => py_eq v (snd s)) (combine ns fvals))) = if existsb (py_eq v) fvals then [x] else []) as ->.
  { clear IH. revert ns L. induction fvals as [|f fvals IH]; intros [|n ns] L; try discriminate L; [reflexivity|]. cbn [combine filter snd existsb]. inversion N as [|? ? N1 N2]; inversion S as [|? ? S1 S2]; subst.
    destruct (py_eq v f) eqn:E; cbn [orb map fst].
    - f_equal. rewrite IH; auto. destruct (existsb (py_eq v) fvals) eqn:X; [|reflexivity]. apply existsb_exists in X as (g & I & G). apply simple_eq in E; auto. apply simple_eq in G; [|rewrite Forall_forall in S2; auto]. subst. contradiction.
    - apply IH; auto. }
  destruct (existsb (py_eq v) fvals); reflexivity.
Qed.

Section Filter.
Variables (d : ddict) (ask : str -> act value) (b : block) (cat m0 o0 f0 c0 k0 : str) (t t0 : table) (v0 keys0 fvals : list value) (cs0 : list copied).
Hypotheses (D : def_of d cat = Ret t) (TY : tget c_type t = Some (VStr (u "Filter")))
  (CO : tget c_components t = Some (VList [VStr m0])) (NI : tget c_new_ids t = Some (VList [VStr o0]))
  (FV : (tget c_int t = None /\ tget c_text t = Some (VList fvals)) \/ (exists il, tget c_int t = Some (VList il) /\ maps (dd_int d) il = Ret fvals /\ tget c_text t = None))
  (M0 : category_of d m0 = Ret c0) (D0 : def_of d c0 = Ret t0) (K0 : tget key_id t0 = Some (VStr k0)) (O0 : dd_object d cat o0 = Ret f0)
  (A0 : ask m0 b = (b, Ok (VList v0))) (B0 : ask k0 b = (b, Ok (VList keys0))) (U0 : unique keys0) (L0 : length v0 = length keys0)
  (P0 : projected d c0 cat [o0] = Ret (map cp_name cs0)) (F0 : Forall (can_copy d ask b c0 cat keys0) cs0)
  (ND : NoDup (f0 :: map cp_to cs0)) (SF : Forall simple fvals) (NF : NoDup fvals).
Let kept_keys := map fst (filter (fun r => existsb (py_eq (snd r)) fvals) (combine keys0 v0)).
Let rows := pulled (combine keys0 v0) (combine (numbers (length fvals)) fvals).
Lemma filter_rows : map fst rows = kept_keys.
Proof. apply pulled_filter; auto. apply numbers_length. Qed.
Lemma filter_sides : sides d ask t false b = (b, Ok ([c0], [VList v0; VList fvals], [keys0; numbers (length fvals)])).
Proof.
  unfold sides. rewrite (lift_eq _ _ _ [m0]) by now apply names_list. erewrite bind_eq. 2:{ cbn [mapa]. erewrite bind_eq by exact A0. erewrite bind_eq; reflexivity. }
  rewrite (lift_eq _ _ _ [c0]) by (cbn [maps]; now rewrite M0). rewrite (lift_eq _ _ _ [k0]) by (cbn [maps]; rewrite (source_key_ok d c0 t0 k0 D0 K0); reflexivity).
  erewrite bind_eq. 2:{ cbn [mapa]. erewrite bind_eq. 2:{ erewrite bind_eq by exact B0. reflexivity. } erewrite bind_eq; reflexivity. }
  destruct FV as [[E1 E2]|(il & E1 & E2 & E3)].
  - rewrite E1, E2. reflexivity.
  - rewrite E1, E3. rewrite (lift_eq _ _ _ [VList v0; VList fvals]) by (cbn [iter obind]; now rewrite E2). reflexivity.
Qed.
Theorem filter_construct : exists cols0, let result := (f0, VList kept_keys) :: cols0 in
  construct d ask cat b = match kept_keys with [] => (b, Ok []) | _ => match store_cat d (VDict result) cat b with (b1, Ok _) => (b1, Ok result) | (b1, Err x) => (b1, Err x) end end /\
  Forall2 (follows keys0 kept_keys) cs0 cols0.
Proof.
  destruct (duplicate_rows d ask b c0 cat [o0] cs0 t0 k0 P0 D0 K0 keys0 (map fst rows) B0 (pulled_known0 _ _ _ U0) F0) as (cols0 & E0 & Q0).
  pose proof (follows_names _ _ _ _ Q0) as N0. rewrite filter_rows in *. exists cols0. split; [|exact Q0]. unfold construct. rewrite (lift_eq _ _ _ t D), TY. cbv zeta.
  change (veq_text (Some (VStr (u "Filter"))) (u "Pullback")) with false. change (veq_text (Some (VStr (u "Filter"))) (u "Filter")) with true. cbn [orb]. erewrite bind_eq by exact filter_sides. cbn [fst snd].
  rewrite (lift_eq _ _ _ rows) by (apply pullback_ids_ok; auto using numbers_unique; now rewrite numbers_length). pose proof filter_rows as FR. clearbody kept_keys.
  destruct rows as [|r rs] eqn:ER; [rewrite <- FR; reflexivity|].
  assert (columns d ask cat t false [c0] (r :: rs) b = (b, Ok ((f0, VList kept_keys) :: cols0))) as E.
  { unfold columns. rewrite (lift_eq _ _ _ [o0]) by now apply names_list. rewrite (lift_eq _ _ _ [f0]) by (cbn [maps]; now rewrite O0). rewrite (lift_eq _ _ _ f0) by reflexivity. erewrite bind_eq by reflexivity.
    rewrite (lift_eq _ _ _ c0) by reflexivity. rewrite FR. rewrite (lift_eq _ _ _ kept_keys) by (cbn [dget]; rewrite str_eqb_refl; reflexivity). erewrite bind_eq by exact E0.
    rewrite merged_app_new; [reflexivity|]. cbn [map fst app]. now rewrite N0. }
  erewrite bind_eq by exact E. rewrite <- FR. cbn [map]. reflexivity.
Qed.
End Filter.

(** ** The way back *)
Section Push.
Variables (d : ddict) (ask : str -> act value) (b : block) (target sc tk sk : str) (tt0 ts : table) (cs : list copied).
Hypotheses (DT : def_of d target = Ret tt0) (KT : tget key_id tt0 = Some (VStr tk)) (DS : def_of d sc = Ret ts) (KS : tget key_id ts = Some (VStr sk)).
Let extras := map (fun c => (cp_to c, VList (cp_vals c))) cs.
Lemma extras_names : map fst extras = map cp_to cs.
Proof. unfold extras. rewrite map_map. reflexivity. Qed.
Lemma same_lengths_ok (r : list (str * value)) n : r <> [] -> (forall k v, In (k, v) r -> py_len v = Ret n) -> same_lengths r b = (b, Ok Datatypes.tt).
Proof.
  intros NE H. unfold same_lengths. rewrite (lift_eq _ _ _ (repeat n (length r))).
  - destruct r as [|kv r]; [contradiction|]. cbn [length repeat]. replace (forallb (Nat.eqb n) (repeat n (length r))) with true; [reflexivity|]. symmetry. apply forallb_forall. intros x I. apply repeat_spec in I as ->. apply Nat.eqb_refl.
  - clear NE. induction r as [|[k v] r IH]; [reflexivity|]. cbn [maps length repeat snd]. rewrite (H k v) by now left. cbn [obind]. rewrite IH; [reflexivity|]. intros k' v' I. apply (H k'). now right.
Qed.
Section Pair.
Variables (m0 m1 o0 o1 s0 s1 c0 c1 old : str) (ids : list value).
Hypotheses (CO : tget c_components ts = Some (VList [VStr m0; VStr m1])) (NI : tget c_new_ids ts = Some (VList [VStr o0; VStr o1]))
  (M0 : category_of d m0 = Ret c0) (M1 : category_of d m1 = Ret c1) (O0 : dd_object d sc o0 = Ret s0) (O1 : dd_object d sc o1 = Ret s1)
  (WH : (c0 = target /\ old = s0) \/ (c0 <> target /\ c1 = target /\ old = s1)) (A : ask old b = (b, Ok (VList ids)))
  (P : projected d sc target [o0; o1; tk] = Ret (map cp_name cs)) (F : Forall (can_copy d ask b sc target ids) cs) (ND : NoDup (tk :: map cp_to cs)).
Theorem push_pair_ok : push d ask target [sc] b =
  match store_cat d (VDict ((tk, VList ids) :: extras)) target b with (b1, Ok _) => (b1, Ok ((tk, VList ids) :: extras)) | (b1, Err x) => (b1, Err x) end.
Proof.
  unfold push. rewrite (lift_eq _ _ _ tk) by now apply (source_key_ok d target tt0).
  assert (push_sources d ask target tk [sc] true [(tk, VList [])] b = (b, Ok ((tk, VList ids) :: extras))) as E.
  { cbn [push_sources]. rewrite (lift_eq _ _ _ ts DS). rewrite (lift_eq _ _ _ [m0; m1]) by now apply names_list. rewrite (lift_eq _ _ _ [c0; c1]) by (cbn [maps]; now rewrite M0, M1).
    rewrite (lift_eq _ _ _ [o0; o1]) by now apply names_list. rewrite (lift_eq _ _ _ [s0; s1]) by (cbn [maps]; now rewrite O0, O1). cbn [length Nat.eqb].
    erewrite bind_eq; [reflexivity|]. unfold push_pair.
    assert (exists pos, match index_of str_eqb target [c0; c1] with Some i => Ret i | None => Raise ValueErr end = Ret pos /\ in_range [s0; s1] pos = Ret old) as (pos & E1 & E2).
    { cbn [index_of]. destruct WH as [[-> ->]|(N & -> & ->)]; [rewrite str_eqb_refl; exists 0; now split|]. destruct (str_eqb_spec target c0) as [->|]; [contradiction|]. rewrite str_eqb_refl. exists 1. now split. }
    rewrite (lift_eq _ _ _ pos E1), (lift_eq _ _ _ old E2). unfold extend at 1. cbn [dget]. rewrite str_eqb_refl.
    erewrite bind_eq. 2:{ rewrite (lift_eq _ _ _ []) by reflexivity. erewrite bind_eq by exact A. rewrite (lift_eq _ _ _ ids) by reflexivity. reflexivity. }
    rewrite (lift_eq _ _ _ Datatypes.tt) by now rewrite NI. erewrite bind_eq by (apply (duplicate_all d ask b sc target [o0; o1; tk] cs ts sk P DS KS ids F)). cbn iota. cbn [dset app]. rewrite str_eqb_refl.
    fold extras. rewrite merged_app_new; [reflexivity|]. cbn [map fst app]. now rewrite extras_names. }
  erewrite bind_eq by exact E. erewrite bind_eq; [reflexivity|]. apply (same_lengths_ok _ (length ids)); [discriminate|]. intros k v [[= <- <-]|I]; [reflexivity|]. unfold extras in I. apply in_map_iff in I as (c & [= <- <-] & I).
  rewrite Forall_forall in F. destruct (F c I) as (_ & _ & _ & L). cbn [py_len]. now rewrite L.
Qed.
End Pair.
Section Single.
Variables (m0 o0 s0 c0 : str) (ids : list value) (x y f : value).
Hypotheses (TY : tget c_type ts = Some (VStr (u "Filter"))) (CO : tget c_components ts = Some (VList [VStr m0])) (NI : tget c_new_ids ts = Some (VList [VStr o0]))
  (M0 : category_of d m0 = Ret c0) (O0 : dd_object d sc o0 = Ret s0) (A : ask s0 b = (b, Ok (VList ids))) (H : has_key s0 b = true)
  (FV : (tget c_int ts = None /\ tget c_text ts = Some (VList [x]) /\ y = x) \/ (tget c_int ts = Some (VList [x]) /\ dd_int d x = Ret y))
  (P : projected d sc target [o0] = Ret (map cp_name cs)) (F : Forall (can_copy d ask b sc target ids) cs) (ND : NoDup (tk :: map cp_to cs ++ [m0])).
Let whole := (tk, VList ids) :: extras ++ [(m0, VList (repeat y (length ids)))].
Lemma extend_new more : forall r, NoDup (map fst r ++ map fst more) -> extend_known true more r b = (b, Ok (r ++ more)).
Proof.
  induction more as [|[k v] more IH]; intros r N; [now rewrite app_nil_r|]. cbn [extend_known].
  assert (~ In k (map fst r)) as K. { cbn [map fst] in N. apply NoDup_remove_2 in N. intros I. apply N, in_or_app. now left. }
  assert (dget str_eqb k r = None /\ dset str_eqb k v r = r ++ [(k, v)]) as [G S].
  { clear -K. induction r as [|[a w] r IH]; [now split|]. cbn [dget dset]. destruct (str_eqb_spec k a) as [->|]; [exfalso; apply K; now left|]. destruct IH as [I1 I2]; [intros I; apply K; now right|]. cbn [app]. rewrite I2. now split. }
  unfold dmem. rewrite G. erewrite bind_eq by reflexivity. rewrite S, IH, <- app_assoc; [reflexivity|]. rewrite map_app, <- app_assoc. exact N.
Qed.
Theorem push_filter_ok : push d ask target [sc] b = match store_cat d (VDict whole) target b with (b1, Ok _) => (b1, Ok whole) | (b1, Err e) => (b1, Err e) end.
Proof.
  unfold push. rewrite (lift_eq _ _ _ tk) by now apply (source_key_ok d target tt0).
  assert (NoDup (tk :: map cp_to cs)) as ND'. { change (NoDup ((tk :: map cp_to cs) ++ [m0])) in ND. now apply NoDup_app_iff in ND as (ND & _ & _). }
  assert (merged [] extras = extras) as MX. { apply merged_new. cbn [map app]. rewrite extras_names. now inversion ND'. }
  assert (push_sources d ask target tk [sc] true [(tk, VList [])] b = (b, Ok whole)) as E.
  { cbn [push_sources]. rewrite (lift_eq _ _ _ ts DS). rewrite (lift_eq _ _ _ [m0]) by now apply names_list. rewrite (lift_eq _ _ _ [c0]) by (cbn [maps]; now rewrite M0).
    rewrite (lift_eq _ _ _ [o0]) by now apply names_list. rewrite (lift_eq _ _ _ [s0]) by (cbn [maps]; now rewrite O0). cbn [length Nat.eqb].
    erewrite bind_eq; [reflexivity|]. unfold push_filter. erewrite bind_eq by (apply (duplicate_all d ask b sc target [o0] cs ts sk P DS KS ids F)). fold extras. rewrite MX.
    erewrite bind_eq. 2:{ instantiate (1 := true). instantiate (1 := b). destruct extras; [|reflexivity]. rewrite (lift_eq _ _ _ s0) by reflexivity. unfold look. now rewrite H. }
    cbn iota. rewrite (lift_eq _ _ _ s0) by reflexivity. unfold extend at 1. cbn [dget]. rewrite str_eqb_refl.
    erewrite bind_eq. 2:{ rewrite (lift_eq _ _ _ []) by reflexivity. erewrite bind_eq by exact A. rewrite (lift_eq _ _ _ ids) by reflexivity. reflexivity. }
    cbn iota. cbn [dset app]. rewrite str_eqb_refl. erewrite bind_eq. 2:{ apply extend_new. cbn [map fst app]. now rewrite extras_names. }
    cbn [app]. unfold push_bonus. rewrite TY. change (veq_text (Some (VStr (u "Filter"))) (u "Filter")) with true. cbn iota.
    assert (dmem str_eqb m0 ((tk, VList ids) :: extras) = false) as DM.
    { change (NoDup ((tk :: map cp_to cs) ++ [m0])) in ND. apply NoDup_app_iff in ND as (_ & _ & N3). unfold dmem. destruct (dget str_eqb m0 ((tk, VList ids) :: extras)) eqn:G; [|reflexivity]. exfalso.
      apply (dget_In str_eqb str_eqb_spec) in G. apply (in_map fst) in G. cbn [map fst] in G. rewrite extras_names in G. apply (N3 m0 G). now left. }
    destruct FV as [(E1 & E2 & ->)|(E1 & E2)].
    - rewrite E1, E2. rewrite (lift_eq _ _ _ (VList [x])) by reflexivity. rewrite (lift_eq _ _ _ [x]) by reflexivity. rewrite (lift_eq _ _ _ m0) by reflexivity. rewrite (lift_eq _ _ _ x) by reflexivity.
      erewrite bind_eq by exact A. rewrite (lift_eq _ _ _ (length ids)) by reflexivity. cbv zeta. rewrite DM. reflexivity.
    - rewrite E1. rewrite (lift_eq _ _ _ (VList [x])) by (destruct (tget c_text ts); reflexivity). rewrite (lift_eq _ _ _ [x]) by reflexivity. rewrite (lift_eq _ _ _ m0) by reflexivity. rewrite (lift_eq _ _ _ y E2).
      erewrite bind_eq by exact A. rewrite (lift_eq _ _ _ (length ids)) by reflexivity. cbv zeta. rewrite DM. reflexivity. }
  erewrite bind_eq by exact E. erewrite bind_eq; [reflexivity|]. apply (same_lengths_ok _ (length ids)); [discriminate|]. intros k v [[= <- <-]|I]; [reflexivity|]. apply in_app_or in I as [I|[[= <- <-]|[]]].
  - unfold extras in I. apply in_map_iff in I as (c & [= <- <-] & I). rewrite Forall_forall in F. destruct (F c I) as (_ & _ & _ & L). cbn [py_len]. now rewrite L.
  - cbn [py_len]. now rewrite repeat_length.
Qed.
End Single.
End Push.

(** ** In the terms of the specification *)
Lemma maps_of_Forall2 {X Y} (f : X -> outcome Y) l ys : Forall2 (fun x y => f x = Ret y) l ys -> maps f l = Ret ys.
Proof. intros F. induction F as [|x y l ys E _ IH]; [reflexivity|]. cbn [maps]. now rewrite E, IH. Qed.
Theorem construct_pullback d ask b cat t s0 s1 : def_of d cat = Ret t -> tget (u "_category_construct_local.type") t = Some (VStr (u "Pullback")) ->
  tget (u "_category_construct_local.components") t = Some (VList [VStr (s_item s0); VStr (s_item s1)]) -> tget (u "_category_construct_local.new_ids") t = Some (VList [VStr (s_new s0); VStr (s_new s1)]) ->
  side_ok d ask b cat [s_new s0; s_new s1] s0 -> side_ok d ask b cat [s_new s0; s_new s1] s1 -> NoDup (s_full s0 :: s_full s1 :: map cp_to (s_copied s0) ++ map cp_to (s_copied s1)) ->
  exists cols0 cols1, construct d ask cat b = match pulled (rows_of s0) (rows_of s1) with
     | [] => (b, Ok [])
     | rows => stored d cat ([(s_full s0, VList (map fst rows)); (s_full s1, VList (map snd rows))] ++ cols0 ++ cols1) b
     end /\
  Forall2 (follows (s_keys s0) (map fst (pulled (rows_of s0) (rows_of s1)))) (s_copied s0) cols0 /\ Forall2 (follows (s_keys s1) (map snd (pulled (rows_of s0) (rows_of s1)))) (s_copied s1) cols1.
Proof.
  intros D TY CO NI (M0 & (t0 & D0 & K0) & O0 & A0 & B0 & U0 & L0 & P0 & F0) (M1 & (t1 & D1 & K1) & O1 & A1 & B1 & U1 & L1 & P1 & F1) ND.
  destruct (pull_construct d ask b cat _ _ _ _ _ _ _ _ _ _ t t0 t1 _ _ _ _ _ _ D TY CO NI M0 M1 D0 D1 K0 K1 O0 O1 A0 A1 B0 B1 U0 U1 L0 L1 P0 P1 F0 F1 ND) as (cols0 & cols1 & E & Q).
  exists cols0, cols1. split; [|exact Q]. unfold rows_of, stored. rewrite E. destruct (pulled _ _); reflexivity.
Qed.
Theorem construct_filter d ask b cat t s fvals : def_of d cat = Ret t -> tget (u "_category_construct_local.type") t = Some (VStr (u "Filter")) ->
  tget (u "_category_construct_local.components") t = Some (VList [VStr (s_item s)]) -> tget (u "_category_construct_local.new_ids") t = Some (VList [VStr (s_new s)]) ->
  filter_values d t fvals -> NoDup fvals -> Forall simple fvals ->
  side_ok d ask b cat [s_new s] s -> NoDup (s_full s :: map cp_to (s_copied s)) ->
  exists cols, construct d ask cat b = match map fst (filter (fun r => existsb (py_eq (snd r)) fvals) (rows_of s)) with
     | [] => (b, Ok [])
     | keys => stored d cat ((s_full s, VList keys) :: cols) b
     end /\ Forall2 (follows (s_keys s) (map fst (filter (fun r => existsb (py_eq (snd r)) fvals) (rows_of s)))) (s_copied s) cols.
Proof.
  intros D TY CO NI FV NF SF (M0 & (t0 & D0 & K0) & O0 & A0 & B0 & U0 & L0 & P0 & F0) ND.
  assert ((tget c_int t = None /\ tget c_text t = Some (VList fvals)) \/ (exists il, tget c_int t = Some (VList il) /\ maps (dd_int d) il = Ret fvals /\ tget c_text t = None)) as FV'.
  { destruct FV as [E|(il & E1 & E2 & E3)]; [now left|]. right. exists il. split; [exact E1|]. split; [now apply maps_of_Forall2|exact E3]. }
  destruct (filter_construct d ask b cat _ _ _ _ _ t t0 _ _ fvals _ D TY CO NI FV' M0 D0 K0 O0 A0 B0 U0 L0 P0 F0 ND SF NF) as (cols & E & Q).
  exists cols. split; [|exact Q]. unfold rows_of, stored. rewrite E. destruct (map fst _); reflexivity.
Qed.
(** An item of a category that was built is read from it. *)
Theorem built_read n d cache prov key cat t b b1 sources result w : has_key key b = false -> never_alias d key -> category_of d key = Ret cat -> str_eqb key (u "saves") = false ->
  (forall k, In k (cat_names d cat) -> has_or_alias d k b = false) -> pulled_to d cat = Ret sources -> def_of d cat = Ret t -> tget c_type t <> None ->
  (forall D, construct d (getitem d cache D prov) cat b = (b1, Ok result)) -> dget str_eqb key result = Some w -> read (S n) d cache prov key b = (b1, Ok w).
Proof.
  intros K NA EC S NP PT D TY CR G. unfold read, getitem at 1. rewrite S, (absent_full _ _ K). unfold attempts. rewrite derive_first. cbn [derive].
  assert (forall ask c st allow, (ask prov = getitem d cache (derive n d cache [key] allow prov) prov) -> body d ask c prov st allow key b = (b1, Ok w)) as B.
  { intros ask c st allow EA. unfold body. erewrite bind_eq by (apply resolve_self; now apply never_no_alias). cbv beta iota. rewrite (lift_eq _ _ _ cat EC). cbv beta iota zeta. erewrite bind_eq by reflexivity.
    rewrite (filter_none (fun a => has_or_alias d a b) (cat_names d cat) NP). rewrite (bind_eq _ _ b b1 (Some w)); [reflexivity|]. unfold populate. rewrite (lift_eq _ _ _ sources PT), (lift_eq _ _ _ t D).
    destruct (tget c_type t); [|contradiction]. erewrite bind_eq. 2:{ unfold attempt. rewrite EA, CR. reflexivity. }
    assert (result <> []) as NE by (intros ->; discriminate G). erewrite bind_eq. 2:{ instantiate (1 := result). instantiate (1 := b1). destruct sources; [reflexivity|]. destruct result; [contradiction|reflexivity]. }
    unfold dmem. rewrite G. destruct (dd_methods d (lower cat)); reflexivity. }
  rewrite B by reflexivity. reflexivity.
Qed.
Lemma projected_In d from to skip names of ot : (forall l x, In x (dd_set d l) <-> In x l) -> object_names_in_cat (dd_defs d) from = Ret of -> object_names_in_cat (dd_defs d) to = Ret ot ->
  projected d from to skip = Ret names -> forall n, In n names <-> In (VStr n) of /\ In (VStr n) ot /\ ~ In n skip.
Proof.
  intros S EF ET E n. unfold projected in E. rewrite EF, ET in E. cbn [obind] in E. destruct (maps as_name of) as [nf|] eqn:NF; [|discriminate]. cbn [obind] in E. destruct (maps as_name ot) as [nt|] eqn:NT; [|discriminate]. cbn [obind] in E. injection E as <-.
  assert (forall vs ns, maps as_name vs = Ret ns -> vs = map VStr ns) as G.
  { induction vs as [|v vs IH]; intros ns H; cbn [maps] in H; [injection H as <-; reflexivity|]. destruct v; cbn [as_name obind] in H; try discriminate H. destruct (maps as_name vs) as [ms|]; [|discriminate H]. cbn [obind] in H. injection H as <-. cbn [map]. now rewrite (IH ms). }
  apply G in NF, NT. subst. rewrite S, filter_In, andb_true_iff, negb_true_iff, (mem_In _ str_eqb_spec), (mem_false _ str_eqb_spec).
  assert (forall l, In (VStr n) (map VStr l) <-> In n l) as V. { intros l. rewrite in_map_iff. split; [intros (x & [= ->] & I); exact I|intros I; now exists n]. }
  rewrite !V. tauto.
Qed.
