(** regex_fiddle replaces the last mark between brackets. *)
From Coq Require Import String Ascii List NArith PeanoNat Bool Lia Sorted.
From Verif Require Import PyBase PyFacts StarBlockModel RegexModel RegexFacts ScanFacts RegexSpec RegexProofs LexProofs LexProofs2 LexProofs3 TypeInfoModel TypeInfoSpec.
Import ListNotations.
Open Scope nat_scope.

Lemma hd_flat {A B} (f : A -> list B) l :
  match hd_error (flat_map f l) with
  | Some y => exists l1 x l2, l = l1 ++ x :: l2 /\ (forall z, In z l1 -> f z = []) /\ hd_error (f x) = Some y
  | None => forall z, In z l -> f z = []
  end.
Proof.
  induction l as [|a l IH]; cbn [flat_map]; [intros z []|]. rewrite hd_app. destruct (f a) as [|b m] eqn:E; cbn [hd_error].
  - destruct (hd_error (flat_map f l)) as [y|].
    + destruct IH as (l1 & x & l2 & -> & H & Hx). exists (a :: l1), x, l2. split; [reflexivity|]. split; [|exact Hx]. intros z [<-|I]; auto.
    + intros z [<-|I]; auto.
  - exists [], a, l. split; [reflexivity|]. split; [intros z []|]. now rewrite E.
Qed.
Lemma flat_flat {A B C} (f : B -> list C) (g : A -> list B) l : flat_map f (flat_map g l) = flat_map (fun x => flat_map f (g x)) l.
Proof. induction l as [|a l IH]; [reflexivity|]. cbn [flat_map]. now rewrite flat_map_app, IH. Qed.

(** ** The languages of the groups *)
Lemma dots_lang c t : lang (RStar rdot) c t <-> ~ In 10%N c.
Proof.
  cbn [lang]. split.
  - induction 1 as [|c1 c2 t (x & -> & H) _ IH]; [intros []|]. intros [E|I]; [|now apply IH]. rewrite E in H. discriminate H.
  - induction c as [|x c IH]; intros H; [constructor|]. apply (reps_cons _ [x] c t); [|apply IH; intros I; apply H; now right].
    exists x. split; [reflexivity|]. apply negb_true_iff, N.eqb_neq. intros ->. apply H. now left.
Qed.
Lemma dot_lang c t : lang rdot c t <-> exists x, c = [x] /\ x <> 10%N.
Proof.
  cbn [lang rdot]. split; intros (x & -> & H); exists x; (split; [reflexivity|]).
  - now apply negb_true_iff, N.eqb_neq in H.
  - now apply negb_true_iff, N.eqb_neq.
Qed.
Lemma before_lang c t : lang before_mark c t <-> ~ In 10%N c /\ exists a b, c = a ++ 91%N :: b /\ b <> [].
Proof.
  unfold before_mark. rewrite seq_iff. split.
  - intros (a & c2 & -> & La & L2). apply seq_iff in L2 as (o & b & -> & Lo & Lb). apply seq_iff in Lb as (x & b' & -> & Lx & Lb). apply dots_lang in La, Lb. apply is_lang in Lo. apply dot_lang in Lx as (y & -> & Hy). subst o. split.
    + intros I. apply in_app_iff in I as [I|[I|[I|I]]]; [auto|discriminate|congruence|auto].
    + exists a, (y :: b'). split; [reflexivity|discriminate].
  - intros (N & a & b & -> & Nb). destruct b as [|y b]; [congruence|]. exists a, (91%N :: y :: b). split; [reflexivity|]. split; [apply dots_lang; intros I; apply N, in_app_iff; now left|].
    apply seq_iff. exists [91%N], (y :: b). split; [reflexivity|]. split; [now apply is_lang|]. apply seq_iff. exists [y], b. split; [reflexivity|]. split.
    + apply dot_lang. exists y. split; [reflexivity|]. intros ->. apply N, in_app_iff. right. right. now left.
    + apply dots_lang. intros I. apply N, in_app_iff. right. right. now right.
Qed.
Lemma after_lang c t : lang after_mark c t <-> ~ In 10%N c /\ In 93%N c.
Proof.
  unfold after_mark. rewrite seq_iff. split.
  - intros (a & c2 & -> & La & L2). apply seq_iff in L2 as (o & b & -> & Lo & Lb). apply dots_lang in La, Lb. apply is_lang in Lo. subst o. split.
    + intros I. apply in_app_iff in I as [I|[I|I]]; [auto|discriminate|auto].
    + apply in_app_iff. right. now left.
  - intros (N & I). apply in_split in I as (a & b & ->). exists a, (93%N :: b). split; [reflexivity|]. split; [apply dots_lang; intros I; apply N, in_app_iff; now left|].
    apply seq_iff. exists [93%N], b. split; [reflexivity|]. split; [now apply is_lang|]. apply dots_lang. intros I. apply N, in_app_iff. right. now right.
Qed.

(** ** The order of the matches *)
Lemma dots_head s c t : hd_error (rmatch (RStar rdot) s) = Some (c, t) -> t = [] \/ exists r, t = 10%N :: r.
Proof.
  intros E. pose proof (star_sorted (rmatch rdot) (length s)) as S. assert (forall x, length (rmatch rdot x) <= 1) as O.
  { intros [|x r]; cbn [rmatch rdot length]; [lia|]. destruct (negb _); cbn; lia. }
  specialize (S O s). cbn [rmatch] in E.
  assert (In (c, t) (rmatch (RStar rdot) s)) as I by (cbn [rmatch]; destruct (star_go _ _ _); [discriminate E|injection E as ->; now left]).
  pose proof I as I'. apply rmatch_lang in I as [-> L]. apply dots_lang in L.
  destruct t as [|x r]; [now left|]. right. destruct (N.eq_dec x 10) as [->|Nx]; [now exists r|]. exfalso.
  assert (In (c ++ [x], r) (rmatch (RStar rdot) (c ++ x :: r))) as J.
  { apply rmatch_lang. split; [now rewrite <- app_assoc|]. apply dots_lang. intros K. apply in_app_iff in K as [K|[K|[]]]; auto. }
  cbn [rmatch] in J. destruct (star_go _ _ _) as [|y l]; [discriminate E|]. injection E as ->. inversion S as [|? ? _ F]; subst.
  destruct J as [J|J]; [injection J as J _; apply (f_equal (@length N)) in J; rewrite app_length in J; cbn in J; lia|].
  rewrite Forall_forall in F. specialize (F _ J). cbn [fst] in F. rewrite app_length in F. cbn in F. lia.
Qed.
Lemma after_head s c t : hd_error (rmatch after_mark s) = Some (c, t) -> t = [] \/ exists r, t = 10%N :: r.
Proof.
  unfold after_mark. rewrite rmatch_seq. intros E.
  match type of E with hd_error (flat_map ?f ?l) = _ => pose proof (hd_flat f l) as H end. rewrite E in H. destruct H as (_ & x & _ & _ & _ & H).
  destruct (rmatch (RSeq (is 93) (RStar rdot)) (snd x)) as [|y l] eqn:Ey; [discriminate H|]. cbn [map hd_error] in H. assert (Some (snd y) = Some t) as Es by exact (f_equal (option_map snd) H). injection Es as <-.
  destruct (snd x) as [|o r]; [discriminate Ey|]. rewrite rmatch_seq in Ey. unfold is in Ey. cbn [rmatch] in Ey. destruct (93 =? o)%N; [|discriminate Ey].
  cbn [flat_map fst snd] in Ey. rewrite app_nil_r in Ey. destruct (star_go (rmatch rdot) (length r) r) as [|z l'] eqn:Ez; [discriminate Ey|]. injection Ey as <- _.
  unfold pre. cbn [snd]. destruct z as [z1 z2]. apply (dots_head r z1 z2). cbn [rmatch]. now rewrite Ez.
Qed.
Lemma opened_sorted s : longer_first (rmatch (RSeq (is 91) (RSeq rdot (RStar rdot))) s).
Proof.
  assert (forall x, length (rmatch rdot x) <= 1) as O. { intros [|x r]; cbn [rmatch rdot length]; [lia|]. destruct (negb _); cbn; lia. }
  rewrite rmatch_seq. unfold is. destruct s as [|o s]; [constructor|]. cbn [rmatch]. destruct (91 =? o)%N; [|constructor]. cbn [flat_map fst snd]. rewrite app_nil_r.
  apply sorted_map_pre. change (longer_first (rmatch (RSeq rdot (RStar rdot)) s)). rewrite rmatch_seq. destruct s as [|d s]; [constructor|]. cbn [rmatch rdot].
  destruct (negb _); [|constructor]. cbn [flat_map fst snd]. rewrite app_nil_r. apply sorted_map_pre. now apply star_sorted.
Qed.

(** ** re_match3 *)
Lemma in_match3 mark s g y : In g (rmatch before_mark s) ->
  In y (flat_map (fun m => map (fun t => (fst g, fst t)) (rmatch after_mark (snd m))) (rmatch (lit mark) (snd g))) ->
  exists rest, s = fst g ++ mark ++ snd y ++ rest /\ fst y = fst g /\ ~ In 10%N (snd y) /\ In 93%N (snd y).
Proof.
  destruct g as [g t]. intros Ig Iy. apply rmatch_lang in Ig as [-> _]. apply in_flat_map in Iy as ([m r] & Im & Iy). cbn [fst snd] in *.
  apply rmatch_lang in Im as [-> Lm]. apply lit_lang in Lm as ->. apply in_map_iff in Iy as ([q rest] & <- & Iq). cbn [fst snd] in *.
  apply rmatch_lang in Iq as [-> Lq]. apply after_lang in Lq as [N I]. exists rest. now repeat split.
Qed.
Lemma site_found mark p q s : site mark p q s -> exists t, s = p ++ t /\ In (p, t) (rmatch before_mark s) /\
  flat_map (fun m => map (fun x => (p, fst x)) (rmatch after_mark (snd m))) (rmatch (lit mark) t) <> [].
Proof.
  intros [(rest & -> & _) Np Nq O C]. exists (mark ++ q ++ rest). split; [reflexivity|]. split; [apply rmatch_lang; split; [reflexivity|apply before_lang; now split]|].
  intros E. assert (In (p, q) []) as []. rewrite <- E. apply in_flat_map. exists (mark, q ++ rest). split.
  - apply rmatch_lang. split; [reflexivity|now apply lit_lang].
  - apply in_map_iff. exists (q, rest). split; [reflexivity|]. apply rmatch_lang. split; [reflexivity|]. apply after_lang. now split.
Qed.
Lemma prefix_in {A} (a b x y : list A) : a ++ x = b ++ y -> length a <= length b -> exists c, b = a ++ c /\ x = c ++ y.
Proof.
  revert b. induction a as [|h a IH]; intros b E L; [now exists b|]. destruct b as [|k b]; [cbn in L; lia|]. injection E as -> E. destruct (IH b E) as (c & -> & ->); [cbn in L; lia|]. now exists c.
Qed.
Theorem match3_ok mark s :
  match re_match3 before_mark (lit mark) after_mark s with
  | Some (p, q) => site mark p q s /\ forall p' q', site mark p' q' s -> length p' <= length p
  | None => forall p q, ~ site mark p q s
  end.
Proof.
  unfold re_match3. set (F := fun g : str * str => flat_map (fun m : str * str => map (fun t : str * str => (fst g, fst t)) (rmatch after_mark (snd m))) (rmatch (lit mark) (snd g))).
  pose proof (hd_flat F (rmatch before_mark s)) as H. destruct (hd_error (flat_map F (rmatch before_mark s))) as [[p q]|] eqn:E.
  - clear H. pose proof E as E'. unfold before_mark in E. rewrite rmatch_seq, flat_flat in E.
    match type of E with hd_error (flat_map ?f ?l) = _ => pose proof (hd_flat f l) as H end. rewrite E in H. destruct H as (l1 & x & l2 & Ex & N1 & H). clear E.
    match type of H with hd_error (flat_map ?f ?l) = _ => pose proof (hd_flat f l) as K end. rewrite H in K. destruct K as (m1 & g & m2 & Eg & N2 & K). clear H.
    assert (In x (rmatch (RStar rdot) s)) as Ix by (rewrite Ex; apply in_elt). assert (In g (map (pre (fst x)) (rmatch (RSeq (is 91) (RSeq rdot (RStar rdot))) (snd x)))) as Ig by (rewrite Eg; apply in_elt).
    assert (In g (rmatch before_mark s)) as Ib by (unfold before_mark; rewrite rmatch_seq; apply in_flat_map; exists x; now split).
    assert (In (p, q) (F g)) as Iy by (destruct (F g); [discriminate K|injection K as ->; now left]).
    destruct (in_match3 mark s g (p, q) Ib Iy) as (rest & Es & Ep & Nq & Cq). cbn [fst snd] in *. subst p. destruct g as [g t]. cbn [fst snd] in *.
    pose proof (proj1 (rmatch_lang _ _ _ _) Ib) as [_ Lb]. apply before_lang in Lb as [Np O].
    assert (rest = [] \/ exists r, rest = 10%N :: r) as Hr.
    { unfold F in K. cbn [fst snd] in K.
      match type of K with hd_error (flat_map ?f ?l) = _ => pose proof (hd_flat f l) as Q end. rewrite K in Q. destruct Q as (a1 & [m r] & a2 & Em & _ & Q). cbn [fst snd] in Q.
      assert (In (m, r) (rmatch (lit mark) t)) as Im by (rewrite Em; apply in_elt). apply rmatch_lang in Im as [-> Lm]. apply lit_lang in Lm as ->.
      destruct (rmatch after_mark r) as [|[c d] l] eqn:Er; [discriminate Q|]. cbn [map hd_error fst] in Q. injection Q as ->.
      assert (In (q, d) (rmatch after_mark r)) as Id by (rewrite Er; now left). apply rmatch_lang in Id as [-> _]. pose proof (proj1 (rmatch_lang _ _ _ _) Ib) as [E2 _]. rewrite Es in E2.
      apply app_inv_head, app_inv_head, app_inv_head in E2. subst d. apply (after_head (q ++ rest) q rest). now rewrite Er. }
    split; [constructor; [exists rest; now split|assumption..]|]. intros p' q' S'. destruct (site_found mark p' q' s S') as (t' & Et & _ & V).
    destruct (Nat.le_gt_cases (length p') (length g)) as [?|L]; [assumption|]. exfalso.
    assert (s = g ++ t) as Eg' by (apply rmatch_lang in Ib; tauto).
    destruct (prefix_in g p' t t') as (e & -> & Et2); [congruence|lia|].
    apply in_map_iff in Ig as ([g2 t2] & Eg2 & Ig). injection Eg2 as <- <-. pose proof (proj1 (rmatch_lang _ _ _ _) Ig) as [Ex2 Lg].
    assert (In (pre (fst x) (g2 ++ e, t')) (map (pre (fst x)) (rmatch (RSeq (is 91) (RSeq rdot (RStar rdot))) (snd x)))) as J.
    { apply in_map. apply rmatch_lang. split; [rewrite Ex2, Et2; cbn [snd]; now rewrite <- app_assoc|]. apply seq_iff in Lg as (o & b & -> & Lo & Lb). apply is_lang in Lo as ->.
      apply seq_iff in Lb as (y & c & -> & Ly & Lc). apply dot_lang in Ly as (z & -> & Hz). apply seq_iff. exists [91%N], ([z] ++ c ++ e). split; [now rewrite <- !app_assoc|]. split; [now apply is_lang|].
      apply seq_iff. exists [z], (c ++ e). split; [reflexivity|]. split; [apply dot_lang; now exists z|]. apply dots_lang. intros I. apply (si_before _ _ _ _ S'). rewrite <- !app_assoc in *. cbn [fst] in *. rewrite !in_app_iff in *. tauto. }
    rewrite Eg in J. assert (F (pre (fst x) (g2 ++ e, t')) <> []) as VF.
    { unfold F, pre. cbn [fst snd]. cbn [fst] in V. now rewrite app_assoc. }
    pose proof (opened_sorted (snd x)) as So. apply (sorted_map_pre (fst x)) in So. rewrite Eg in So.
    apply in_app_iff in J as [J|[J|J]]; [now apply VF, N2| |].
    + unfold pre in J. injection J as J _. apply app_inv_head in J. cbn [fst] in *. apply (f_equal (@length N)) in J. rewrite !app_length in *. lia.
    + clear -So J L. induction m1 as [|a m1 IH]; cbn [app] in So.
      * inversion So as [|? ? _ F]; subst. rewrite Forall_forall in F. specialize (F _ J). unfold pre in F. cbn [fst] in *. rewrite !app_length in *. lia.
      * inversion So; subst. auto.
  - intros p q S. destruct (site_found mark p q s S) as (t & _ & I & V). apply V. exact (H (p, t) I).
Qed.
Theorem fiddle_mends mark new s : mended mark new s (fiddle_one mark new s).
Proof.
  unfold fiddle_one. pose proof (match3_ok mark s) as H. destruct (re_match3 _ _ _ _) as [[p q]|]; [left|right; now split].
  destruct H as [S M]. exists p, q. split; [exact S|]. now split.
Qed.
(** There is only one such text. *)
Lemma site_unique mark p q q' s : site mark p q s -> site mark p q' s -> q = q'.
Proof.
  intros [(r & E & R) _ N _ _] [(r' & E' & R') _ N' _ _]. rewrite E in E'. apply app_inv_head, app_inv_head in E'. clear -E' R R' N N'.
  revert q' N' E'. induction q as [|x q IH]; intros [|y q'] N' E; [reflexivity| | |].
  - cbn in E. destruct R as [->|(w & ->)]; [discriminate|]. injection E as Ey _. elim N'. left. congruence.
  - cbn in E. destruct R' as [->|(w & ->)]; [discriminate|]. injection E as Ey _. elim N. left. congruence.
  - injection E as -> E. f_equal. apply IH; auto; intros I; [apply N|apply N']; now right.
Qed.
Lemma mended_unique mark new s a b : mended mark new s a -> mended mark new s b -> a = b.
Proof.
  intros [(p & q & S & M & ->)|[N ->]] [(p' & q' & S' & M' & ->)|[N' ->]]; [|now elim (N' p q)|now elim (N p' q')|reflexivity].
  assert (p = p') as <-. { pose proof (M _ _ S'). pose proof (M' _ _ S). destruct S as [(r & -> & _) _ _ _ _], S' as [(r' & E & _) _ _ _ _]. destruct (prefix_in p p' _ _ E ltac:(lia)) as (c & -> & _). rewrite app_length in *. destruct c; [now rewrite app_nil_r|cbn in *; lia]. }
  now rewrite (site_unique _ _ _ _ _ S S').
Qed.
