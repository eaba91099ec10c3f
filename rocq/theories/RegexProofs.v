(** The matcher lists exactly the matches. *)
From Coq Require Import List NArith Bool Lia.
From Verif Require Import PyBase RegexModel RegexFacts RegexSpec.
Import ListNotations.
Open Scope nat_scope.

Lemma reps_nonempty L c t : reps L c t -> c = [] \/ exists x c1 c2, c = (x :: c1) ++ c2 /\ L (x :: c1) (c2 ++ t) /\ reps L c2 t.
Proof.
  induction 1 as [t|c1 c2 t H R IH]; [now left|]. destruct c1 as [|x c1]; [exact IH|]. right. now exists x, c1, c2.
Qed.
Lemma go_sound (m : str -> list (str * str)) L (Hm : forall s c t, In (c, t) (m s) <-> s = c ++ t /\ L c t) n s c t :
  In (c, t) (flat_map (fun cr => match fst cr with [] => [] | _ => map (fun cr2 => (fst cr ++ fst cr2, snd cr2)) (n (snd cr)) end) (m s)) ->
  (forall s' c' t', length s' < length s -> In (c', t') (n s') -> s' = c' ++ t' /\ reps L c' t') -> s = c ++ t /\ reps L c t.
Proof.
  intros H IH. apply in_flat_map in H. destruct H as ((c1 & t1) & H1 & H2). cbn [fst snd] in H2. apply Hm in H1. destruct H1 as [-> H1]. destruct c1 as [|x c1]; [destruct H2|].
  apply in_map_iff in H2. destruct H2 as ((c2 & t2) & E & H2). cbn [fst snd] in E. injection E as <- <-. destruct (IH t1 c2 t2) as [-> R]; [rewrite app_length; cbn [length]; lia|exact H2|].
  split; [now rewrite app_assoc|]. exact (reps_cons L (x :: c1) c2 t2 H1 R).
Qed.
Lemma go_complete (m : str -> list (str * str)) L (Hm : forall s c t, In (c, t) (m s) <-> s = c ++ t /\ L c t) n x c1 c2 t :
  L (x :: c1) (c2 ++ t) -> In (c2, t) (n (c2 ++ t)) ->
  In ((x :: c1) ++ c2, t) (flat_map (fun cr => match fst cr with [] => [] | _ => map (fun cr2 => (fst cr ++ fst cr2, snd cr2)) (n (snd cr)) end) (m ((x :: c1) ++ c2 ++ t))).
Proof.
  intros H1 H2. apply in_flat_map. exists (x :: c1, c2 ++ t). split; [now apply Hm|]. cbn [fst snd]. apply in_map_iff. exists (c2, t). now split.
Qed.
Lemma star_go_lang m L (Hm : forall s c t, In (c, t) (m s) <-> s = c ++ t /\ L c t) n : forall s c t, length s <= n -> In (c, t) (star_go m n s) <-> s = c ++ t /\ reps L c t.
Proof.
  induction n as [|n IH]; intros s c t Hl; cbn [star_go].
  - destruct s; [|cbn in Hl; lia]. split.
    + intros [E|[]]. injection E as <- <-. split; [reflexivity|constructor].
    + intros [E _]. symmetry in E. apply app_eq_nil in E. destruct E as [-> ->]. now left.
  - rewrite in_app_iff. split.
    + intros [H|[E|[]]]; [|injection E as <- <-; split; [reflexivity|constructor]]. apply (go_sound m L Hm (star_go m n) s c t H). intros s' c' t' Hs. apply IH. lia.
    + intros [-> R]. destruct (reps_nonempty _ _ _ R) as [->|(x & c1 & c2 & -> & H1 & H2)]; [right; now left|]. left. rewrite <- app_assoc. apply (go_complete m L Hm (star_go m n)); [exact H1|].
      apply IH; [rewrite !app_length in *; cbn [length] in Hl; lia|now split].
Qed.
Lemma lazy_go_lang m L (Hm : forall s c t, In (c, t) (m s) <-> s = c ++ t /\ L c t) n : forall s c t, length s <= n -> In (c, t) (lazy_go m n s) <-> s = c ++ t /\ reps L c t.
Proof.
  induction n as [|n IH]; intros s c t Hl; cbn [lazy_go].
  - destruct s; [|cbn in Hl; lia]. split.
    + intros [E|[]]. injection E as <- <-. split; [reflexivity|constructor].
    + intros [E _]. symmetry in E. apply app_eq_nil in E. destruct E as [-> ->]. now left.
  - split.
    + intros [E|H]; [injection E as <- <-; split; [reflexivity|constructor]|]. apply (go_sound m L Hm (lazy_go m n) s c t H). intros s' c' t' Hs. apply IH. lia.
    + intros [-> R]. destruct (reps_nonempty _ _ _ R) as [->|(x & c1 & c2 & -> & H1 & H2)]; [now left|]. right. rewrite <- app_assoc. apply (go_complete m L Hm (lazy_go m n)); [exact H1|].
      apply IH; [rewrite !app_length in *; cbn [length] in Hl; lia|now split].
Qed.
Lemma rmatch_cases {A} (l : list A) : l = [] \/ exists x, In x l.
Proof. destruct l as [|x l]; [now left|right; exists x; now left]. Qed.
Theorem rmatch_lang r : forall s c t, In (c, t) (rmatch r s) <-> s = c ++ t /\ lang r c t.
Proof.
  induction r as [|p|a IHa b IHb|a IHa b IHb|a IHa|a IHa|a IHa|a IHa| |]; intros s c t; cbn [rmatch lang].
  - split; [intros [E|[]]; injection E as <- <-; now split|]. intros [-> ->]. now left.
  - split.
    + destruct s as [|x s]; [intros []|]. destruct (p x) eqn:E; [|intros []]. intros [K|[]]. injection K as <- <-. split; [reflexivity|]. now exists x.
    + intros [-> (x & -> & E)]. cbn [app]. rewrite E. now left.
  - rewrite in_flat_map. split.
    + intros ((c1 & t1) & H1 & H2). apply in_map_iff in H2. destruct H2 as ((c2 & t2) & E & H2). cbn [fst snd] in E, H2. injection E as <- <-. apply IHa in H1. destruct H1 as [-> H1]. apply IHb in H2. destruct H2 as [-> H2].
      split; [now rewrite app_assoc|]. now exists c1, c2.
    + intros [-> (c1 & c2 & -> & H1 & H2)]. exists (c1, c2 ++ t). split; [apply IHa; split; [now rewrite app_assoc|exact H1]|]. apply in_map_iff. exists (c2, t). split; [reflexivity|]. cbn [snd]. apply IHb. now split.
  - rewrite in_app_iff, IHa, IHb. tauto.
  - apply star_go_lang; [exact IHa|apply le_n].
  - apply lazy_go_lang; [exact IHa|apply le_n].
  - destruct (rmatch_cases (rmatch a s)) as [E|((c1 & t1) & H)].
    + rewrite E. split; [intros []|]. intros [-> [-> (c1 & t1 & -> & H)]]. cbn [app] in E. assert (In (c1, t1) (rmatch a (c1 ++ t1))) as K by (apply IHa; now split). rewrite E in K. destruct K.
    + pose proof (proj1 (IHa s c1 t1) H) as HL. destruct (rmatch a s) as [|y l]; [destruct H|]. split.
      * intros [E|[]]. injection E as <- <-. split; [reflexivity|]. split; [reflexivity|]. now exists c1, t1.
      * intros [-> [-> _]]. now left.
  - destruct (rmatch_cases (rmatch a s)) as [E|((c1 & t1) & H)].
    + rewrite E. split.
      * intros [K|[]]. injection K as <- <-. split; [reflexivity|]. split; [reflexivity|]. intros c1 t1 Es H. assert (In (c1, t1) (rmatch a s)) as K by (apply IHa; now split). rewrite E in K. destruct K.
      * intros [-> [-> _]]. now left.
    + pose proof (proj1 (IHa s c1 t1) H) as [Es HL]. destruct (rmatch a s) as [|y l]; [destruct H|]. split; [intros []|]. intros [E0 [-> K]]. cbn [app] in E0. rewrite <- E0 in K. elim (K c1 t1 Es HL).
  - destruct s as [|x s].
    + split; [intros [E|[]]; injection E as <- <-; split; [reflexivity|]; split; [reflexivity|now left]|]. intros [E [-> _]]. cbn [app] in E. subst t. now left.
    + destruct (N.eqb_spec x 10%N) as [->|N].
      * split; [intros [E|[]]; injection E as <- <-; split; [reflexivity|]; split; [reflexivity|right; now exists s]|]. intros [E [-> _]]. cbn [app] in E. subst t. now left.
      * split; [intros []|]. intros [E [-> [->|(t' & ->)]]]; [discriminate|]. cbn [app] in E. injection E as -> _. now elim N.
  - destruct s as [|x s].
    + split; [intros [E|[]]; injection E as <- <-; split; [reflexivity|]; split; [reflexivity|now left]|]. intros [E [-> _]]. cbn [app] in E. subst t. now left.
    + destruct s as [|y s].
      * destruct (N.eqb_spec x 10%N) as [->|N].
        -- split; [intros [E|[]]; injection E as <- <-; split; [reflexivity|]; split; [reflexivity|now right]|]. intros [E [-> _]]. cbn [app] in E. subst t. now left.
        -- split; [intros []|]. intros [E [-> [->| ->]]]; [discriminate|]. cbn [app] in E. injection E as ->. now elim N.
      * split; [intros []|]. intros [E [-> [->| ->]]]; discriminate.
Qed.
(** The first match python finds is a match, and it finds one if there is one. *)
Theorem re_match_lang r s :
  match re_match r s with Some (c, t) => s = c ++ t /\ lang r c t | None => forall c t, s = c ++ t -> ~ lang r c t end.
Proof.
  unfold re_match. destruct (rmatch r s) as [|[c t] l] eqn:E; cbn [hd_error].
  - intros c t Es H. assert (In (c, t) (rmatch r s)) as K by (apply rmatch_lang; now split). rewrite E in K. destruct K.
  - apply rmatch_lang. rewrite E. now left.
Qed.
