(** Categories built from others. *)
From Coq Require Import String Ascii List NArith ZArith Bool PeanoNat Lia.
From Verif Require Import PyBase PyFacts StarBlockModel StarBlockSpec LoopModel LoopSpec LoopProofs ValidateModel TreeModel DeriveModel DeriveSpec DeriveProofs DeriveProofs3 DeriveProofs4 DeriveProofs5 DeriveProofs6 PullbackSpec.
Import ListNotations.
Open Scope nat_scope.

Lemma bind_eq {A B} (m : act A) (f : A -> act B) b b1 a : m b = (b1, Ok a) -> bind m f b = f a b1.
Proof. intros E. unfold bind. now rewrite E. Qed.
Lemma lift_eq {A B} (o : outcome A) (f : A -> act B) b a : o = Ret a -> bind (lift o) f b = f a b.
Proof. intros ->. reflexivity. Qed.

Lemma index_of_nth (keys : list value) x i : (forall j y, nth_error keys j = Some y -> (py_eq x y = true <-> i = j)) -> i < length keys -> index_of py_eq x keys = Some i.
Proof.
  revert i. induction keys as [|y keys IH]; intros i H L; [cbn in L; lia|]. cbn [index_of]. specialize (H 0 y eq_refl) as H0. destruct (py_eq x y).
  - destruct H0 as [H0 _]. now rewrite (H0 eq_refl).
  - destruct i as [|i]; [destruct H0 as [_ H0]; discriminate (H0 eq_refl)|]. rewrite (IH i); [reflexivity| |cbn in L; lia]. intros j z N. rewrite (H (S j) z N). split; congruence.
Qed.
Lemma position_unique keys i x : unique keys -> nth_error keys i = Some x -> position x keys = Ret i.
Proof.
  intros U N. unfold position. rewrite (index_of_nth keys x i); [reflexivity| |apply nth_error_Some; congruence]. intros j y M. rewrite py_eq_spec. now apply U.
Qed.
Lemma subscript_nth v l i x : iter v = Ret l -> nth_error l i = Some x -> subscript v i = Ret x.
Proof. intros E N. unfold subscript. rewrite E. cbn [obind]. now rewrite N. Qed.

Lemma skipn_S {X} n (l : list X) x r : skipn n l = x :: r -> skipn (S n) l = r.
Proof. revert l. induction n as [|n IH]; intros [|y l]; cbn [skipn]; try discriminate; [now intros [= _ <-]|]. intros E. apply IH in E. exact E. Qed.

(** ** The pairs of rows *)
Section Matching.
Variables (m0 m1 : value) (l0 l1 c0 c1 : list value).
Hypotheses (I0 : iter m0 = Ret l0) (I1 : iter m1 = Ret l1) (U0 : unique c0) (U1 : unique c1) (L0 : length l0 = length c0) (L1 : length l1 = length c1).
Definition row_of (x : value) : list value -> outcome (list (value * value)) :=
  fix row (ys : list value) : outcome (list (value * value)) :=
    match ys with
    | [] => Ret []
    | y :: ys' =>
        obind (obind (position x c0) (subscript m0)) (fun v =>
        obind (obind (position y c1) (subscript m1)) (fun w =>
        obind (row ys') (fun r => Ret (if py_eq v w then (x, y) :: r else r))))
    end.
Lemma row_ok x v i : nth_error c0 i = Some x -> nth_error l0 i = Some v -> forall ys ws j, skipn j c1 = ys -> skipn j l1 = ws ->
  row_of x ys = Ret (map (fun s => (x, fst s)) (filter (fun s => py_eq v (snd s)) (combine ys ws))).
Proof.
  intros X V. induction ys as [|y ys IH]; intros ws j E F; [reflexivity|].
  assert (nth_error c1 j = Some y) as Y. { rewrite <- (firstn_skipn j c1) at 1. assert (j < length c1) as J. { pose proof (skipn_length j c1) as P. rewrite E in P. cbn in P. lia. } rewrite nth_error_app2; rewrite firstn_length_le by lia; [|lia]. rewrite Nat.sub_diag, E. reflexivity. }
  assert (j < length l1) as J by (rewrite L1; apply nth_error_Some; congruence).
  destruct ws as [|w ws]. { pose proof (skipn_length j l1) as P. rewrite F in P. cbn in P. lia. }
  assert (nth_error l1 j = Some w) as W. { rewrite <- (firstn_skipn j l1) at 1. rewrite nth_error_app2; rewrite firstn_length_le by lia; [|lia]. rewrite Nat.sub_diag, F. reflexivity. }
  cbn [row_of]. rewrite (position_unique c0 i x U0 X). cbn [obind]. rewrite (subscript_nth m0 l0 i v I0 V). cbn [obind]. rewrite (position_unique c1 j y U1 Y). cbn [obind]. rewrite (subscript_nth m1 l1 j w I1 W). cbn [obind].
  fold (row_of x). rewrite (IH ws (S j)).
  - cbn [obind combine filter snd]. destruct (py_eq v w); reflexivity.
  - now apply skipn_S in E.
  - now apply skipn_S in F.
Qed.
Lemma matching_from xs vs i : skipn i c0 = xs -> skipn i l0 = vs -> matching m0 m1 c0 c1 xs c1 = Ret (pulled (combine xs vs) (combine c1 l1)).
Proof.
  revert vs i. induction xs as [|x xs IH]; intros vs i E F; [reflexivity|].
  assert (i < length c0) as J. { pose proof (skipn_length i c0) as P. rewrite E in P. cbn in P. lia. }
  destruct vs as [|v vs]. { pose proof (skipn_length i l0) as P. rewrite F in P. cbn in P. lia. }
  assert (nth_error c0 i = Some x) as X. { rewrite <- (firstn_skipn i c0) at 1. rewrite nth_error_app2; rewrite firstn_length_le by lia; [|lia]. rewrite Nat.sub_diag, E. reflexivity. }
  assert (nth_error l0 i = Some v) as V. { rewrite <- (firstn_skipn i l0) at 1. rewrite nth_error_app2; rewrite firstn_length_le by lia; [|lia]. rewrite Nat.sub_diag, F. reflexivity. }
  cbn [matching]. fold (row_of x). rewrite (row_ok x v i X V c1 l1 0 eq_refl eq_refl). cbn [obind]. rewrite (IH vs (S i)).
  - reflexivity.
  - now apply skipn_S in E.
  - now apply skipn_S in F.
Qed.
Lemma matching_ok : matching m0 m1 c0 c1 c0 c1 = Ret (pulled (combine c0 l0) (combine c1 l1)).
Proof. now apply matching_from with (i := 0). Qed.
End Matching.
Lemma pulled_In rows0 rows1 x y : In (x, y) (pulled rows0 rows1) <-> exists v w, In (x, v) rows0 /\ In (y, w) rows1 /\ py_eq v w = true.
Proof.
  unfold pulled. rewrite in_flat_map. split.
  - intros ([x' v] & I & J). apply in_map_iff in J as ([y' w] & E & J). cbn [fst snd] in *. injection E as <- <-. apply filter_In in J as [J P]. eauto.
  - intros (v & w & I & J & P). exists (x, v). split; [exact I|]. apply in_map_iff. exists (y, w). split; [reflexivity|]. apply filter_In. now split.
Qed.
Lemma pulled_nil_l rows1 : pulled [] rows1 = [].
Proof. reflexivity. Qed.
Lemma pulled_nil_r rows0 : pulled rows0 [] = [].
Proof. unfold pulled. induction rows0; [reflexivity|assumption]. Qed.
Lemma pullback_ids_ok m0 m1 l0 l1 c0 c1 : iter m0 = Ret l0 -> iter m1 = Ret l1 -> unique c0 -> unique c1 -> length l0 = length c0 -> length l1 = length c1 ->
  pullback_ids [m0; m1] [c0; c1] = Ret (pulled (combine c0 l0) (combine c1 l1)).
Proof.
  intros I0 I1 U0 U1 L0 L1. unfold pullback_ids. cbn [in_range nth_error obind]. destruct c0 as [|x c0]; [reflexivity|]. destruct c1 as [|y c1]; [cbn [combine]; now rewrite pulled_nil_r|]. now apply matching_ok.
Qed.

(** ** Copied columns *)
Lemma maps_Forall2 {X Y} (f : X -> outcome Y) l (R : X -> Y -> Prop) : (forall x, In x l -> exists y, f x = Ret y /\ R x y) -> exists ys, maps f l = Ret ys /\ Forall2 R l ys.
Proof.
  induction l as [|x l IH]; intros H; [exists []; split; [reflexivity|constructor]|]. destruct (H x (or_introl eq_refl)) as (y & E & P). destruct IH as (ys & F & Q); [intros; apply H; now right|].
  exists (y :: ys). split; [cbn [maps]; now rewrite E, F|now constructor].
Qed.
Lemma index_of_found keys k : (exists k', In k' keys /\ same_value k k') -> exists i k', index_of py_eq k keys = Some i /\ nth_error keys i = Some k' /\ same_value k k'.
Proof.
  induction keys as [|y keys IH]; intros (k' & I & SV); [contradiction|]. cbn [index_of]. destruct (py_eq k y) eqn:E; [exists 0, y; split; [reflexivity|split; [reflexivity|now apply py_eq_spec]]|].
  destruct IH as (i & z & F & N & Z); [destruct I as [<-|I]; [apply py_eq_spec in SV; congruence|now exists k']|]. rewrite F. exists (S i), z. now split.
Qed.
Lemma nth_combine {X Y} (l : list X) (m : list Y) i x y : nth_error l i = Some x -> nth_error m i = Some y -> In (x, y) (combine l m).
Proof. revert m i. induction l as [|a l IH]; intros [|b m] [|i]; cbn; try discriminate; [intros [= ->] [= ->]; now left|]. intros A B. right. eauto. Qed.
Definition known (keys rows : list value) : Prop := forall k, In k rows -> exists k', In k' keys /\ same_value k k'.
Lemma merged_new acc cols : NoDup (map fst acc ++ map fst cols) -> merged acc cols = acc ++ cols.
Proof.
  revert acc. induction cols as [|[k v] cols IH]; intros acc N; [now rewrite app_nil_r|]. unfold merged. cbn [fold_left fst snd]. fold (merged (dset str_eqb k v acc) cols).
  assert (~ In k (map fst acc)) as K. { intros I. cbn [map fst] in N. apply NoDup_remove_2 in N. apply N, in_or_app. now left. }
  assert (dset str_eqb k v acc = acc ++ [(k, v)]) as ->.
  { clear -K. induction acc as [|[a w] acc IH]; [reflexivity|]. cbn [dset]. destruct (str_eqb_spec k a) as [->|]; [exfalso; apply K; now left|]. cbn [app]. f_equal. apply IH. intros I. apply K. now right. }
  rewrite IH, <- app_assoc; [reflexivity|]. rewrite map_app, <- app_assoc. exact N.
Qed.
Section Copy.
Variables (d : ddict) (ask : str -> act value) (b : block) (from to : str).
Lemma copy_rows_ok sk keys rows : ask sk b = (b, Ok (VList keys)) -> known keys rows -> forall cs last acc, Forall (can_copy d ask b from to keys) cs ->
  exists cols, copy_rows d ask from to sk rows (map cp_name cs) last acc b = (b, Ok (merged acc cols)) /\ Forall2 (follows keys rows) cs cols.
Proof.
  intros K R. induction cs as [|c cs IH]; intros last acc F; [exists []; split; [reflexivity|constructor]|]. pose proof (Forall_inv F) as (P1 & P2 & P3 & P4). pose proof (Forall_inv_tail F) as F'.
  destruct (maps_Forall2 (fun a => position a keys) rows (fun k i => exists k', nth_error keys i = Some k' /\ same_value k k')) as (pos & EP & FP).
  { intros k I. destruct (index_of_found keys k (R k I)) as (i & k' & E & N & S). exists i. unfold position. rewrite E. eauto. }
  destruct (maps_Forall2 (subscript (VList (cp_vals c))) pos (fun i v => nth_error (cp_vals c) i = Some v)) as (col & EC & FC).
  { intros i I. assert (i < length keys) as L. { clear -FP I. induction FP as [|k i' rows pos (k' & N & _) _ IH]; [contradiction|]. destruct I as [<-|I]; [apply nth_error_Some; congruence|auto]. }
    destruct (nth_error (cp_vals c) i) as [v|] eqn:V; [|apply nth_error_None in V; lia]. exists v. split; [now apply (subscript_nth _ (cp_vals c))|reflexivity]. }
  destruct (IH (Some (VList (cp_vals c))) (dset str_eqb (cp_to c) (VList col) acc) F') as (cols & E & Q). exists ((cp_to c, VList col) :: cols). split.
  - cbn [map copy_rows]. rewrite (lift_eq _ _ _ _ P1), (lift_eq _ _ _ _ P2), (bind_eq _ _ _ _ _ K).
    assert (match rows with [] => Ret [] | _ => obind (as_column (VList keys)) (fun l => maps (fun a => position a l) rows) end = Ret pos) as ->. { destruct rows; [|exact EP]. exact EP. }
    erewrite lift_eq by reflexivity. erewrite bind_eq by (rewrite P3; reflexivity). erewrite bind_eq by (unfold lift; rewrite EC; reflexivity). exact E.
  - constructor; [|exact Q]. split; [reflexivity|]. exists col. split; [reflexivity|]. clear -FP FC. revert col FC. induction FP as [|k i rows pos (k' & N & S) _ IH]; intros col FC; inversion_clear FC; constructor; auto.
    exists k'. split; [exact S|]. eapply nth_combine; eauto.
Qed.
Lemma copy_all_ok keys : forall cs acc, Forall (can_copy d ask b from to keys) cs ->
  copy_all d ask from to (map cp_name cs) acc b = (b, Ok (merged acc (map (fun c => (cp_to c, VList (cp_vals c))) cs))).
Proof.
  induction cs as [|c cs IH]; intros acc F; [reflexivity|]. pose proof (Forall_inv F) as (P1 & P2 & P3 & P4). pose proof (Forall_inv_tail F) as F'. cbn [map copy_all]. rewrite (lift_eq _ _ _ _ P1), (lift_eq _ _ _ _ P2).
  erewrite bind_eq by (rewrite P3; reflexivity). rewrite IH by exact F'. reflexivity.
Qed.
Variables (skip : list str) (cs : list copied) (tf : table) (sk : str).
Hypotheses (PJ : projected d from to skip = Ret (map cp_name cs)) (DF : def_of d from = Ret tf) (KF : tget key_id tf = Some (VStr sk)).
Lemma source_key_ok : obind (def_of d from) (fun t => name_of_attr t key_id) = Ret sk.
Proof. rewrite DF. cbn [obind]. unfold name_of_attr, attr. now rewrite KF. Qed.
Lemma duplicate_rows keys rows : ask sk b = (b, Ok (VList keys)) -> known keys rows -> Forall (can_copy d ask b from to keys) cs ->
  exists cols, duplicate d ask from to (Some rows) skip b = (b, Ok (merged [] cols)) /\ Forall2 (follows keys rows) cs cols.
Proof.
  intros K R F. destruct (copy_rows_ok sk keys rows K R cs None [] F) as (cols & E & Q). exists cols. split; [|exact Q]. unfold duplicate. rewrite (lift_eq _ _ _ _ PJ), (lift_eq _ _ _ _ source_key_ok). exact E.
Qed.
Lemma duplicate_all keys : Forall (can_copy d ask b from to keys) cs -> duplicate d ask from to None skip b = (b, Ok (merged [] (map (fun c => (cp_to c, VList (cp_vals c))) cs))).
Proof. intros F. unfold duplicate. rewrite (lift_eq _ _ _ _ PJ), (lift_eq _ _ _ _ source_key_ok). now apply copy_all_ok with (keys := keys). Qed.
End Copy.
Lemma follows_names keys rows cs cols : Forall2 (follows keys rows) cs cols -> map fst cols = map cp_to cs.
Proof. intros F. induction F as [|c kv cs cols [E _] _ IH]; [reflexivity|]. cbn [map]. now rewrite E, IH. Qed.
