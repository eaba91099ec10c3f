(** Products of matrices by their entries. *)
From Coq Require Import String List NArith ZArith PeanoNat Bool Lia.
From Verif Require Import PyBase RuntimeModel RuntimeSpec.
Import ListNotations.
Open Scope nat_scope.

Lemma sum_is_ext : forall n f g x, (forall k, k < n -> f k = g k) -> sum_is n f x -> sum_is n g x.
Proof.
  induction n as [|n IH]; intros f g x E H; inversion H; subst; constructor.
  - apply IH with (f := f); [intros k Hk; apply E; lia | assumption].
  - rewrite <- E by lia. assumption.
Qed.

Lemma dot_snoc : forall a b x y, length a = length b -> dot (a ++ [x]) (b ++ [y]) = (dot a b + x * y)%Z.
Proof.
  induction a as [|h a IH]; intros [|k b] x y E; try discriminate E.
  - unfold dot. cbn [app combine map fold_right fst snd]. ring.
  - injection E as E. specialize (IH b x y E). unfold dot in *. cbn [app combine map fold_right fst snd] in *.
    rewrite IH. ring.
Qed.

Lemma dot_sum : forall a b, length a = length b ->
  sum_is (length a) (fun k => times (nth_error a k) (nth_error b k)) (dot a b).
Proof.
  induction a as [|x a IH] using rev_ind; intros b E.
  - destruct b; [constructor | discriminate E].
  - rewrite app_length, Nat.add_comm in E. cbn [length] in E.
    destruct (@exists_last _ b) as [b' [y Eb]]; [intro C; subst; discriminate E|]. subst b.
    rewrite app_length, Nat.add_comm in E. cbn [length] in E.
    assert (E2 : length a = length b') by lia.
    rewrite dot_snoc by exact E2. rewrite app_length. rewrite Nat.add_comm. cbn [length]. rewrite Nat.add_1_l.
    constructor.
    + apply sum_is_ext with (f := fun k => times (nth_error a k) (nth_error b' k)); [|apply IH; exact E2].
      intros k Hk. rewrite !nth_error_app1 by lia. reflexivity.
    + rewrite nth_error_app2 by lia. rewrite nth_error_app2 by lia. rewrite E2, Nat.sub_diag. reflexivity.
Qed.

Lemma zip_cons_len : forall r cs, length r = length cs -> length (zip_cons r cs) = length cs.
Proof. induction r as [|x r IH]; intros [|c cs] E; try discriminate E; [reflexivity|]. cbn [zip_cons length]. f_equal. apply IH. injection E; auto. Qed.

Lemma zip_cons_nth : forall r cs j, length r = length cs ->
  nth_error (zip_cons r cs) j = match nth_error r j, nth_error cs j with Some x, Some c => Some (x :: c) | _, _ => None end.
Proof.
  induction r as [|x r IH]; intros [|c cs] j E; try discriminate E.
  - destruct j; reflexivity.
  - destruct j as [|j]; [reflexivity|]. cbn [zip_cons nth_error]. apply IH. injection E; auto.
Qed.

Lemma nth_error_repeat' : forall (A : Type) (x : A) n i, i < n -> nth_error (repeat x n) i = Some x.
Proof. intros A x n. induction n as [|n IH]; intros [|i] H; try lia; cbn [repeat nth_error]; [reflexivity | apply IH; lia]. Qed.

Lemma fold_zip : forall c m, Forall (fun x => length x = c) m ->
  length (fold_right zip_cons (repeat [] c) m) = c /\
  forall j, j < c -> exists col, nth_error (fold_right zip_cons (repeat [] c) m) j = Some col /\ length col = length m /\
    forall i, nth_error col i = entry m i j.
Proof.
  intros c m H. induction H as [|r m Hr Hm [IL IH]].
  - cbn [fold_right]. split; [apply repeat_length|]. intros j Hj. exists []. rewrite nth_error_repeat' by exact Hj.
    repeat split. intro i. unfold entry. destruct i; reflexivity.
  - cbn [fold_right]. split; [rewrite zip_cons_len; [exact IL | rewrite IL; exact Hr]|].
    intros j Hj. destruct (IH j Hj) as [col [E1 [E2 E3]]].
    destruct (nth_error r j) as [x|] eqn:Ex.
    2:{ apply nth_error_None in Ex. lia. }
    exists (x :: col). rewrite zip_cons_nth by (rewrite IL; exact Hr). rewrite Ex, E1. repeat split.
    + cbn [length]. rewrite E2. reflexivity.
    + intros [|i]; [unfold entry; cbn [nth_error]; symmetry; exact Ex | exact (E3 i)].
Qed.

Lemma cols_sized : forall m r c, sized m r c -> r <> 0 -> cols m = c.
Proof. intros [|x m] r c [H1 H2] Hr; [cbn in H1; congruence|]. exact (Forall_inv H2). Qed.

Lemma transpose_sized : forall m r c, sized m r c -> r <> 0 ->
  sized (transpose m) c r /\ forall i j, entry (transpose m) j i = entry m i j.
Proof.
  intros m r c S Hr. unfold transpose. rewrite (cols_sized m r c S Hr). destruct S as [S1 S2].
  destruct (fold_zip c m S2) as [L H]. split; [split; [exact L|]|].
  - apply Forall_forall. intros x Hx. apply In_nth_error in Hx. destruct Hx as [j Hj].
    assert (j < c) by (rewrite <- L; apply nth_error_Some; rewrite Hj; discriminate).
    destruct (H j H0) as [col [E1 [E2 _]]]. rewrite Hj in E1. injection E1 as <-. congruence.
  - intros i j. destruct (Nat.lt_ge_cases j c) as [Hj|Hj].
    + destruct (H j Hj) as [col [E1 [E2 E3]]]. unfold entry at 1. rewrite E1. apply E3.
    + unfold entry. replace (nth_error (fold_right zip_cons (repeat [] c) m) j) with (@None (list Z)).
      2:{ symmetry. apply nth_error_None. rewrite L. exact Hj. }
      destruct (nth_error m i) as [row|] eqn:Er; [|reflexivity].
      symmetry. apply nth_error_None. apply nth_error_In in Er. rewrite Forall_forall in S2. rewrite (S2 row Er). exact Hj.
Qed.

Lemma sized_row : forall m r c i row, sized m r c -> nth_error m i = Some row -> length row = c.
Proof. intros m r c i row [_ H] E. apply nth_error_In in E. rewrite Forall_forall in H. exact (H row E). Qed.

Lemma mat_mul_product : forall a b r n p, sized a r n -> sized b n p -> r <> 0 -> n <> 0 ->
  exists c, mat_mul a b = Ret c /\ product a b c r n p.
Proof.
  intros a b r n p Sa Sb Hr Hn. unfold mat_mul. rewrite (cols_sized a r n Sa Hr). destruct (Sb) as [Lb _]. rewrite Lb, Nat.eqb_refl.
  eexists. split; [reflexivity|]. destruct (transpose_sized b n p Sb Hn) as [St Et].
  split; [exact Sa|]. split; [exact Sb|]. split.
  - split; [rewrite map_length; apply Sa|]. apply Forall_forall. intros x Hx. apply in_map_iff in Hx.
    destruct Hx as [row [<- _]]. rewrite map_length. apply St.
  - intros i j Hi Hj.
    destruct (nth_error a i) as [row|] eqn:Er; [|apply nth_error_None in Er; destruct Sa; lia].
    destruct (nth_error (transpose b) j) as [col|] eqn:Ec; [|apply nth_error_None in Ec; destruct St; lia].
    exists (dot row col). split.
    + unfold entry. rewrite (map_nth_error _ _ _ Er). apply map_nth_error. exact Ec.
    + rewrite <- (sized_row a r n i row Sa Er). apply sum_is_ext with (f := fun k => times (nth_error row k) (nth_error col k)).
      * intros k Hk. f_equal; [unfold entry; rewrite Er; reflexivity|]. rewrite <- Et. unfold entry. rewrite Ec. reflexivity.
      * apply dot_sum. rewrite (sized_row a r n i row Sa Er), (sized_row _ p n j col St Ec). reflexivity.
Qed.

Lemma mat_mul_fails : forall a b r n n' p, sized a r n -> sized b n' p -> r <> 0 -> n <> n' -> mat_mul a b = Raise ValueErr.
Proof.
  intros a b r n n' p Sa Sb Hr E. unfold mat_mul. rewrite (cols_sized a r n Sa Hr). destruct Sb as [Lb _]. rewrite Lb.
  apply Nat.eqb_neq in E. rewrite E. reflexivity.
Qed.

(** ** The sums are determined, so the product is *)
Lemma sum_unique : forall n f x y, sum_is n f x -> sum_is n f y -> x = y.
Proof.
  induction n as [|n IH]; intros f x y H H'; inversion H; inversion H'; subst; [reflexivity|].
  match goal with E : f n = Some ?p, E' : f n = Some ?q |- _ => assert (p = q) by congruence end. subst. f_equal. eapply IH; eassumption.
Qed.

Lemma nth_error_ext : forall (A : Type) (l m : list A), (forall i, nth_error l i = nth_error m i) -> l = m.
Proof.
  intros A l. induction l as [|x l IH]; intros [|y m] H; [reflexivity | discriminate (H 0) | discriminate (H 0) |].
  pose proof (H 0) as H0. injection H0 as ->. f_equal. apply IH. intro i. exact (H (S i)).
Qed.

Lemma entries_eq : forall a b r p, sized a r p -> sized b r p -> (forall i j, i < r -> j < p -> entry a i j = entry b i j) -> a = b.
Proof.
  intros a b r p Sa Sb H. apply nth_error_ext. intro i.
  destruct (Nat.lt_ge_cases i r) as [Hi|Hi].
  - destruct (nth_error a i) as [x|] eqn:Ea; [|apply nth_error_None in Ea; destruct Sa; lia].
    destruct (nth_error b i) as [y|] eqn:Eb; [|apply nth_error_None in Eb; destruct Sb; lia].
    f_equal. apply nth_error_ext. intro j. destruct (Nat.lt_ge_cases j p) as [Hj|Hj].
    + specialize (H i j Hi Hj). unfold entry in H. rewrite Ea, Eb in H. exact H.
    + rewrite (proj2 (nth_error_None x j)) by (rewrite (sized_row a r p i x Sa Ea); exact Hj).
      rewrite (proj2 (nth_error_None y j)) by (rewrite (sized_row b r p i y Sb Eb); exact Hj). reflexivity.
  - rewrite (proj2 (nth_error_None a i)) by (destruct Sa; lia). rewrite (proj2 (nth_error_None b i)) by (destruct Sb; lia). reflexivity.
Qed.

Lemma product_unique : forall a b c d r n p, product a b c r n p -> product a b d r n p -> c = d.
Proof.
  intros a b c d r n p [_ [_ [Sc Hc]]] [_ [_ [Sd Hd]]]. apply (entries_eq c d r p Sc Sd). intros i j Hi Hj.
  destruct (Hc i j Hi Hj) as [x [E1 S1]]. destruct (Hd i j Hi Hj) as [y [E2 S2]].
  rewrite E1, E2. f_equal. exact (sum_unique _ _ _ _ S1 S2).
Qed.

(** ** Rows and columns *)
Lemma row_transpose : forall v, v <> [] -> transpose [v] = column v.
Proof.
  intros v Hv. unfold transpose. cbn [cols fold_right]. clear Hv.
  induction v as [|x v IH]; [reflexivity|]. cbn [length repeat zip_cons column map]. unfold column in IH. rewrite IH. reflexivity.
Qed.

Lemma column_transpose : forall v, v <> [] -> transpose (column v) = [v].
Proof.
  intros [|x v] H; [congruence|]. unfold transpose. cbn [column map cols length repeat fold_right].
  assert (E : forall w, fold_right zip_cons [[]] (column w) = [w]).
  { induction w as [|y w IH]; [reflexivity|]. cbn [column map fold_right]. unfold column in IH. rewrite IH. reflexivity. }
  unfold column in E. rewrite E. reflexivity.
Qed.

Lemma column_sized : forall v, sized (column v) (length v) 1.
Proof. intro v. split; [apply map_length|]. apply Forall_forall. intros x Hx. apply in_map_iff in Hx. destruct Hx as [y [<- _]]. reflexivity. Qed.

Lemma sized_column : forall m r, sized m r 1 -> m = column (concat m).
Proof.
  intros m r [_ H]. induction H as [|x m Hx Hm IH]; [reflexivity|].
  destruct x as [|y [|z x]]; try discriminate Hx. cbn [concat app column map]. f_equal. exact IH.
Qed.

Lemma reduce_given : forall c r p, sized c r p -> r <> 0 -> given c r p (reduce c).
Proof.
  intros c r p S Hr. pose proof (cols_sized c r p S Hr) as Ec. destruct (S) as [L F].
  destruct c as [|v [|w c]].
  - cbn in L. congruence.
  - cbn in L. subst r. cbn [cols] in Ec. destruct v as [|x [|y v]].
    + cbn in Ec. subst p. apply given_row. discriminate.
    + cbn in Ec. subst p. apply given_number.
    + cbn [reduce]. apply given_row. rewrite <- Ec. cbn. discriminate.
  - assert (r <> 1) by (cbn in L; lia).
    assert (E : reduce (v :: w :: c) = if Nat.eqb (cols (v :: w :: c)) 1 then Vec (concat (v :: w :: c)) else Mat (v :: w :: c)).
    { destruct v as [|x [|y v]]; reflexivity. }
    rewrite E, Ec. destruct (Nat.eqb_spec p 1) as [->|Hp].
    + rewrite (sized_column _ r S) at 1. apply given_column. assumption.
    + apply given_rows; assumption.
Qed.

Lemma column_inj : forall v w, column v = column w -> v = w.
Proof. induction v as [|a v IH]; intros [|b w] E; try discriminate E; [reflexivity|]. injection E as -> E. f_equal. apply IH. exact E. Qed.

Lemma given_unique : forall c r p x y, given c r p x -> given c r p y -> x = y.
Proof.
  intros c r p x y H H'. inversion H; subst; inversion H'; subst; try congruence.
  f_equal. apply column_inj. congruence.
Qed.

(** ** drel_dot *)
Lemma make_vec : forall v, make_numpy (Vec v) = Ret (Some [v]).
Proof. reflexivity. Qed.

Lemma make_mat : forall m r c, sized m r c -> r <> 0 -> make_numpy (Mat m) = Ret (Some m).
Proof.
  intros m r c S Hr. unfold make_numpy. rewrite (cols_sized m r c S Hr).
  replace (forallb _ m) with true; [reflexivity|]. symmetry. apply forallb_forall. intros x Hx.
  apply Nat.eqb_eq. destruct S as [_ F]. rewrite Forall_forall in F. exact (F x Hx).
Qed.

Lemma make_left : forall x a r n, left_factor x a -> sized a r n -> r <> 0 -> make_numpy x = Ret (Some a).
Proof. intros x a r n H S Hr. destruct H; [reflexivity | exact (make_mat m r n S Hr)]. Qed.

Lemma mat_case : forall (b x : list (list Z)) (A : Type) (f g : outcome A), length b <> 1 -> x = b -> match x with [r] => f | _ => g end = g.
Proof. intros b x A f g H ->. destruct b as [|r [|s b]]; try reflexivity. exfalso. apply H. reflexivity. Qed.

Lemma dot_left : forall x y a, make_numpy x = Ret (Some a) -> forall b, make_numpy y = Ret (Some b) ->
  drel_dot x y = match b with
                 | [r] => obind (mat_mul a (transpose b)) (fun c => Ret (reduce (transpose c)))
                 | _ => obind (mat_mul a b) (fun c => Ret (reduce c))
                 end.
Proof. intros x y a E b E'. unfold drel_dot. rewrite E, E'. reflexivity. Qed.

Lemma dot_product : forall x y a b r n p, left_factor x a -> right_factor y b -> sized a r n -> sized b n p -> r <> 0 -> n <> 0 ->
  exists c v, product a b c r n p /\ given c r p v /\ drel_dot x y = Ret v.
Proof.
  intros x y a b r n p Hx Hy Sa Sb Hr Hn.
  destruct (mat_mul_product a b r n p Sa Sb Hr Hn) as [c [E P]].
  pose proof (make_left x a r n Hx Sa Hr) as Ex. destruct (P) as [_ [_ [Sc _]]].
  destruct Hy as [w Hw|m Hm].
  - assert (p = 1). { pose proof (cols_sized _ n p Sb Hn) as C. destruct w; [congruence|]. cbn in C. congruence. } subst p.
    exists c. rewrite (dot_left x (Vec w) a Ex [w] eq_refl). rewrite (row_transpose w Hw), E. cbn [obind].
    destruct (transpose_sized c r 1 Sc Hr) as [St Et].
    pose proof (sized_column c r Sc) as Ec.
    assert (Lc : length (concat c) = r). { destruct Sc as [L _]. rewrite <- L at 1. rewrite Ec at 2. unfold column. symmetry. apply map_length. }
    assert (Hc : concat c <> []). { intro C. rewrite C in Lc. cbn in Lc. congruence. }
    assert (Tc : transpose c = [concat c]). { rewrite Ec at 1. apply column_transpose. exact Hc. }
    rewrite Tc. exists (reduce [concat c]). split; [exact P|]. split; [|reflexivity].
    destruct (concat c) as [|z [|z' k]] eqn:Ek; [congruence| |].
    + cbn in Lc. subst r. rewrite Ec. apply given_number.
    + rewrite Ec. change (reduce [z :: z' :: k]) with (Vec (z :: z' :: k)). apply given_column. cbn in Lc. lia.
  - exists c, (reduce c). split; [exact P|]. split; [apply reduce_given; assumption|].
    rewrite (dot_left x (Mat m) a Ex m (make_mat m n p Sb Hn)).
    rewrite (mat_case m m arg _ _ Hm eq_refl), E. reflexivity.
Qed.

Lemma dot_refuses : forall x y a b r n n' p, left_factor x a -> right_factor y b -> sized a r n -> sized b n' p ->
  r <> 0 -> n' <> 0 -> n <> n' -> drel_dot x y = Raise ValueErr.
Proof.
  intros x y a b r n n' p Hx Hy Sa Sb Hr Hn E. pose proof (make_left x a r n Hx Sa Hr) as Ex.
  pose proof (mat_mul_fails a b r n n' p Sa Sb Hr E) as F. destruct Hy as [w Hw|m Hm].
  - rewrite (dot_left x (Vec w) a Ex [w] eq_refl), (row_transpose w Hw), F. reflexivity.
  - rewrite (dot_left x (Mat m) a Ex m (make_mat m n' p Sb Hn)), (mat_case m m arg _ _ Hm eq_refl), F. reflexivity.
Qed.

Lemma dot_ragged : forall m x, In x m -> length x <> cols m -> make_numpy (Mat m) = Raise ValueErr.
Proof.
  intros m x Hx Hl. unfold make_numpy. destruct (forallb _ m) eqn:E; [|reflexivity].
  rewrite forallb_forall in E. specialize (E x Hx). apply Nat.eqb_eq in E. congruence.
Qed.

Lemma entry_map : forall f m i j, entry (map (map f) m) i j = option_map f (entry m i j).
Proof.
  intros f m i j. unfold entry. revert i j. induction m as [|r m IH]; intros [|i] j; try reflexivity; [|apply IH].
  clear IH.
  cbn [map nth_error]. revert j. induction r as [|x r IHr]; intros [|j]; try reflexivity. apply IHr.
Qed.
Lemma sized_map : forall f m r c, sized m r c -> sized (map (map f) m) r c.
Proof. intros f m r c [L F]. split; [rewrite map_length; exact L|]. apply Forall_map. eapply Forall_impl; [|exact F]. intros x H. cbv beta in *. rewrite map_length. exact H. Qed.

Lemma dot_scalar : forall k m r c, sized m r c -> r <> 0 ->
  exists m', drel_dot (Scal k) (Mat m) = Ret (Mat m') /\ drel_dot (Mat m) (Scal k) = Ret (Mat m') /\ sized m' r c /\
  forall i j, entry m' i j = times (Some k) (entry m i j).
Proof.
  intros k m r c S Hr. exists (map (map (Z.mul k)) m). unfold drel_dot. rewrite (make_mat m r c S Hr). cbn [make_numpy obind].
  split; [reflexivity|]. split; [|split; [apply sized_map; exact S|]].
  - do 2 f_equal. apply map_ext. intro x. apply map_ext. intro z. apply Z.mul_comm.
  - intros i j. rewrite entry_map. destruct (entry m i j); reflexivity.
Qed.

Lemma dot_one_row : forall x a b r n, left_factor x a -> sized a r n -> r <> 0 -> length b <> n -> b <> [] ->
  drel_dot x (Mat [b]) = Raise ValueErr.
Proof.
  intros x a b r n Hx Sa Hr Hb Hne.
  rewrite (dot_left x (Mat [b]) a (make_left x a r n Hx Sa Hr) [b] (make_mat [b] 1 (length b) (conj eq_refl (Forall_cons b eq_refl (Forall_nil _))) (Nat.neq_succ_0 0))).
  rewrite (row_transpose b Hne), (mat_mul_fails a (column b) r n (length b) 1 Sa (column_sized b) Hr (not_eq_sym Hb)). reflexivity.
Qed.
