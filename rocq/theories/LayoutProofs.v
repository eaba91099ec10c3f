(** Facts about lines and blocks. *)
From Coq Require Import String Ascii List NArith PeanoNat Bool Lia.
From Verif Require Import PyBase PyFacts DrelModel LayoutSpec.
Import ListNotations.
Open Scope string_scope. Open Scope list_scope. Open Scope nat_scope.

Lemma split_ne s : split_lines s <> [].
Proof. induction s as [|c s IH]; cbn [split_lines]; [discriminate|]. destruct (N.eqb c 10); [discriminate|]. destruct (split_lines s); [congruence|discriminate]. Qed.
Lemma split_app a b : split_lines (a ++ nl ++ b) = split_lines a ++ split_lines b.
Proof.
  induction a as [|c a IH]; [reflexivity|]. cbn [app split_lines]. rewrite IH. destruct (N.eqb c 10); [reflexivity|].
  pose proof (split_ne a). destruct (split_lines a); [congruence|reflexivity].
Qed.
Lemma split_flat s : flat s = true -> split_lines s = [s].
Proof.
  induction s as [|c s IH]; [reflexivity|]. cbn [flat forallb split_lines]. intros H. apply andb_true_iff in H as [A B].
  apply negb_true_iff in A. rewrite A, (IH B). reflexivity.
Qed.
Lemma flat_app a b : flat (a ++ b) = (flat a && flat b)%bool.
Proof. apply forallb_app. Qed.

Definition shift (l : nat * str) : nat * str := (4 + fst l, snd l).
Definition sp4 : str := repeat 32%N 4.
Lemma split_indent t : forall pre, flat pre = true ->
  split_lines (pre ++ add_indent t) = match split_lines t with l :: ls => (pre ++ l) :: map (app sp4) ls | [] => [] end.
Proof.
  induction t as [|c t IH]; intros pre F.
  - cbn [add_indent flat_map split_lines map]. rewrite app_nil_r, split_flat by exact F. reflexivity.
  - cbn [split_lines]. unfold add_indent. cbn [flat_map]. fold (add_indent t). destruct (N.eqb_spec c 10) as [->|N].
    + change (pre ++ (10%N :: repeat 32%N 4) ++ add_indent t) with (pre ++ nl ++ sp4 ++ add_indent t).
      rewrite split_app, split_flat by exact F. rewrite (IH sp4 eq_refl). rewrite app_nil_r.
      pose proof (split_ne t). destruct (split_lines t); [congruence|reflexivity].
    + rewrite (app_assoc pre [c]). rewrite IH.
      * pose proof (split_ne t). destruct (split_lines t); [congruence|]. rewrite <- app_assoc. reflexivity.
      * rewrite flat_app, F. cbn [flat forallb andb]. apply N.eqb_neq in N. rewrite N. reflexivity.
Qed.
Lemma indent_sp4 x : indent (sp4 ++ x) = shift (indent x).
Proof. reflexivity. Qed.
Lemma filter_shift l : filter full (map indent (map (app sp4) l)) = map shift (filter full (map indent l)).
Proof.
  induction l as [|x l IH]; [reflexivity|]. cbn [map filter]. rewrite indent_sp4, IH.
  change (full (shift (indent x))) with (full (indent x)). destruct (full (indent x)); reflexivity.
Qed.
Lemma lines_app a b : py_lines (a ++ nl ++ b) = py_lines a ++ py_lines b.
Proof. unfold py_lines. rewrite split_app, map_app, filter_app. reflexivity. Qed.
Lemma lines_indented t : py_lines (indented t) = map shift (py_lines t).
Proof.
  unfold indented. change (add_indent (nl ++ t)) with ([] ++ nl ++ (sp4 ++ add_indent t)). rewrite lines_app. cbn [py_lines split_lines map indent filter full snd app].
  unfold py_lines. rewrite (split_indent t sp4 eq_refl), <- filter_shift. pose proof (split_ne t). destruct (split_lines t); [congruence|]. reflexivity.
Qed.

(** Blocks *)
Lemma block_app n a b l1 l2 : block n a l1 -> block n b l2 -> block n (a ++ b) (l1 ++ l2).
Proof.
  intros A B. induction A as [n|n t ls l O A IH|n m t body ls bd l O L N F Bd IHb A IH]; [exact B| |].
  - cbn [app]. constructor; auto.
  - cbn [app]. rewrite <- app_assoc. econstructor; eauto.
Qed.
Lemma block_shift n ls l : block n ls l -> block (4 + n) (map shift ls) l.
Proof.
  induction 1 as [n|n t ls l O A IH|n m t body ls bd l O L N F Bd IHb A IH].
  - constructor.
  - cbn [map]. change (shift (n, t)) with (4 + n, t). constructor; assumption.
  - cbn [map]. rewrite map_app. change (shift (n, t)) with (4 + n, t). apply (b_open (4 + n) (4 + m)); auto; [lia|].
    rewrite Forall_forall in *. intros x I. apply in_map_iff in I as (y & <- & I). specialize (F y I). cbn [shift fst]. lia.
Qed.
Lemma block_top n ls l : block n ls l -> ls = [] /\ l = [] \/ exists t r x l2, ls = (n, t) :: r /\ l = x :: l2.
Proof. intros H. inversion H; subst; eauto 8. Qed.
Lemma cut_same (n : nat) (a a2 b b2 : list (nat * str)) : Forall (fun x => n < fst x) a -> Forall (fun x => n < fst x) a2 ->
  (b = [] \/ exists t r, b = (n, t) :: r) -> (b2 = [] \/ exists t r, b2 = (n, t) :: r) -> a ++ b = a2 ++ b2 -> a = a2 /\ b = b2.
Proof.
  intros F. revert a2. induction F as [|x a L F IH]; intros a2 F2 B B2 E.
  - destruct F2 as [|y a2 L2 F2]; [auto|]. cbn [app] in E. destruct B as [->|(t & r & ->)]; [discriminate E|]. injection E as <- _. cbn [fst] in L2. lia.
  - destruct F2 as [|y a2 L2 F2].
    + cbn [app] in E. destruct B2 as [->|(t & r & ->)]; [discriminate E|]. injection E as -> _. cbn [fst] in L. lia.
    + cbn [app] in E. injection E as <- E. destruct (IH a2 F2 B B2 E) as [-> ->]. auto.
Qed.
Lemma block_det n ls l : block n ls l -> forall l2, block n ls l2 -> l = l2.
Proof.
  induction 1 as [n|n t ls l O A IH|n m t body ls bd l O L N F Bd IHb A IH]; intros l2 H.
  - inversion H. reflexivity.
  - inversion H; subst; [f_equal; auto|congruence].
  - inversion H as [|? ? ? ? O2|n2 m2 t2 body2 ls2 bd2 l3 O2 L2 N2 F2 Bd2 A2]; subst; [congruence|].
    assert (T : forall k x y, block k x y -> x = [] \/ exists t r, x = (k, t) :: r) by (intros k x y B; destruct (block_top _ _ _ B) as [[-> _]|(? & ? & ? & ? & -> & _)]; eauto).
    match goal with E : body2 ++ ls2 = body ++ ls |- _ => destruct (cut_same n _ _ _ _ F2 F (T _ _ _ A2) (T _ _ _ A) E) as [-> ->] end.
    assert (m2 = m) as ->.
    { destruct (block_top _ _ _ Bd) as [[_ ->]|(? & ? & ? & ? & -> & _)]; [congruence|].
      destruct (block_top _ _ _ Bd2) as [[E _]|(? & ? & ? & ? & E & _)]; [discriminate E|]. congruence. }
    f_equal; [f_equal|]; auto.
Qed.

Lemma laid_app a b l1 l2 : laid a l1 -> laid b l2 -> laid (a ++ nl ++ b) (l1 ++ l2).
Proof. unfold laid. rewrite lines_app. apply block_app. Qed.
Lemma laid_nil : laid [] [].
Proof. constructor. Qed.
Lemma laid_nl a l : laid a l -> laid (a ++ nl) l.
Proof. intros H. pose proof (laid_app a [] l [] H laid_nil) as X. rewrite !app_nil_r in X. exact X. Qed.
Lemma line_of s : flat s = true -> s <> [] -> hd 0%N s <> 32%N -> py_lines s = [(0, s)].
Proof.
  intros F N H. unfold py_lines. rewrite split_flat by exact F. cbn [map].
  destruct s as [|c s]; [congruence|]. cbn [hd] in H. cbn [indent]. apply N.eqb_neq in H. rewrite H. reflexivity.
Qed.
Lemma laid_head h t b : flat h = true -> h <> [] -> hd 0%N h <> 32%N -> opens h = true -> laid t b -> b <> [] ->
  laid (h ++ indented t) [Opens (first_word h) b].
Proof.
  intros F N H O L B. unfold laid. change (indented t) with (nl ++ (sp4 ++ add_indent t)). rewrite lines_app, line_of by assumption.
  pose proof (lines_indented t) as E. change (indented t) with ([] ++ nl ++ (sp4 ++ add_indent t)) in E. rewrite lines_app in E.
  change (py_lines []) with (@nil (nat * str)) in E. cbn [app] in E. rewrite E. cbn [app].
  rewrite <- (app_nil_r (map shift (py_lines t))). apply (b_open 0 4); [exact O|lia|exact B| |apply (block_shift 0), L|constructor].
  rewrite Forall_forall. intros x I. apply in_map_iff in I as (y & <- & _). cbn [shift fst]. lia.
Qed.

(** Texts that start, that end, and that are a line *)
Definition St (s : str) : Prop := flat s = true /\ s <> [] /\ hd 0%N s <> 32%N.
Definition En (s : str) : Prop := flat s = true /\ s <> [] /\ last s 0%N <> 58%N.
Definition Wd (s : str) : Prop := St s /\ En s.
Lemma St_app a b : St a -> flat b = true -> St (a ++ b).
Proof. intros (F & N & H) B. split; [rewrite flat_app, F, B; reflexivity|]. destruct a; [congruence|]. split; [discriminate|exact H]. Qed.
Lemma En_app a b : flat a = true -> En b -> En (a ++ b).
Proof.
  intros A (F & N & H). split; [rewrite flat_app, F, A; reflexivity|]. split; [destruct a; [exact N|discriminate]|].
  destruct b as [|c b]; [congruence|]. rewrite (app_removelast_last 0%N N), app_assoc, last_last. exact H.
Qed.
Lemma St_flat s : St s -> flat s = true. Proof. intros (H & _). exact H. Qed.
Lemma En_flat s : En s -> flat s = true. Proof. intros (H & _). exact H. Qed.
Lemma Wd_flat s : Wd s -> flat s = true. Proof. intros (H & _). apply St_flat, H. Qed.
Lemma word_Wd s : word s = true <-> Wd s.
Proof.
  unfold word, Wd, St, En. rewrite !andb_true_iff, !negb_true_iff, !N.eqb_neq. split.
  - intros (((G & F) & H) & L). assert (s <> []) by (destruct s; [discriminate G|discriminate]). auto 8.
  - intros ((F & N & H) & (_ & _ & L)). repeat split; auto. destruct s; [congruence|reflexivity].
Qed.
Lemma laid_line s : Wd s -> laid s [Line].
Proof.
  intros ((F & N & H) & (_ & _ & L)). unfold laid. rewrite line_of by assumption. constructor; [|constructor].
  unfold opens. apply N.eqb_neq, L.
Qed.
Lemma opens_colon s : opens (s ++ u ":") = true.
Proof. unfold opens. change (u ":") with [58%N]. rewrite last_last. reflexivity. Qed.
Lemma flat_lower s : flat s = true -> flat (lower s) = true.
Proof.
  unfold flat, lower. rewrite !forallb_forall. intros H c I. apply in_map_iff in I as (d & <- & I). specialize (H d I).
  unfold lower_char. destruct (_ && _)%bool eqn:E; [|exact H]. apply andb_true_iff in E as [E _]. apply N.leb_le in E.
  apply negb_true_iff, N.eqb_neq. lia.
Qed.
Lemma flat_concat l : Forall (fun s => flat s = true) l -> flat (concat l) = true.
Proof. induction 1 as [|x l H F IH]; [reflexivity|]. cbn [concat]. rewrite flat_app, H, IH. reflexivity. Qed.
Lemma flat_removelast s : flat s = true -> flat (removelast s) = true.
Proof.
  unfold flat. rewrite !forallb_forall. intros H c I. apply H. destruct s as [|d s]; [destruct I|].
  rewrite (app_removelast_last 0%N (l := d :: s)) by discriminate. apply in_or_app. auto.
Qed.
Lemma add_indent_flat s : flat s = true -> add_indent s = s.
Proof.
  induction s as [|c s IH]; [reflexivity|]. cbn [flat forallb]. intros H. apply andb_true_iff in H as [A B]. unfold add_indent. cbn [flat_map].
  apply negb_true_iff in A. rewrite A. fold (add_indent s). rewrite (IH B). reflexivity.
Qed.
Lemma digits_flat d : flat (u (DecimalString.NilEmpty.string_of_uint d)) = true /\ (forall x, last (119%N :: u (DecimalString.NilEmpty.string_of_uint d)) x <> 58%N).
Proof.
  assert (A : Forall (fun c => (48 <= c <= 57)%N) (u (DecimalString.NilEmpty.string_of_uint d))).
  { induction d; cbn; constructor; auto; vm_compute; split; intros X; discriminate X. }
  generalize dependent (u (DecimalString.NilEmpty.string_of_uint d)). intros s A. split.
  - unfold flat. rewrite forallb_forall. intros c I. rewrite Forall_forall in A. specialize (A c I). apply negb_true_iff, N.eqb_neq. lia.
  - intros x. destruct s as [|c s]; [vm_compute; discriminate|]. rewrite Forall_forall in A.
    assert (I : In (last (c :: s) x) (c :: s)). { rewrite (app_removelast_last x (l := c :: s)) at 2 by discriminate. apply in_or_app. right. left. reflexivity. }
    specialize (A _ I). change (last (119%N :: c :: s) x) with (last (c :: s) x). lia.
Qed.
Lemma dec_flat n : flat (dec n) = true.
Proof. apply digits_flat. Qed.
Lemma with_word n : Wd (u "__w" ++ dec n).
Proof.
  split; [apply St_app; [vm_compute; repeat split; discriminate|apply dec_flat]|].
  split; [rewrite flat_app, dec_flat; reflexivity|]. split; [discriminate|].
  change (u "__w" ++ dec n) with ([95%N; 95%N] ++ 119%N :: dec n). destruct (digits_flat (Nat.to_uint n)) as [_ H].
  assert (E : forall z : str, z <> [] -> last ([95%N; 95%N] ++ z) 0%N = last z 0%N) by (intros [|c z] N; [congruence|reflexivity]). rewrite E by discriminate. apply H.
Qed.
