(** Facts about the regular expression matcher. *)
From Coq Require Import String Ascii List NArith ZArith Bool Lia.
From Verif Require Import PyBase PyFacts RegexModel.
Import ListNotations.

(** Longest prefix of characters of a class, and the rest. *)
Fixpoint span (p : N -> bool) (s : str) : str * str :=
  match s with
  | [] => ([], [])
  | c :: s' => if p c then let (a, b) := span p s' in (c :: a, b) else ([], s)
  end.

Lemma span_app p s : fst (span p s) ++ snd (span p s) = s.
Proof.
  induction s as [|c s IH]; cbn [span]; [reflexivity|].
  destruct (p c); [|reflexivity]. destruct (span p s) as [a b]. cbn in *. now rewrite IH.
Qed.
Lemma span_all p s : Forall (fun c => p c = true) (fst (span p s)).
Proof.
  induction s as [|c s IH]; cbn [span]; [constructor|].
  destruct (p c) eqn:E; [|constructor]. destruct (span p s) as [a b]. cbn in *. now constructor.
Qed.
Lemma span_stop p s c t : snd (span p s) = c :: t -> p c = false.
Proof.
  induction s as [|d s IH]; cbn [span]; [discriminate|].
  destruct (p d) eqn:E.
  - destruct (span p s) as [a b]. exact IH.
  - cbn. intros H. injection H as -> _. exact E.
Qed.
Lemma span_prefix p a t : Forall (fun c => p c = true) a ->
  match t with [] => True | c :: _ => p c = false end -> span p (a ++ t) = (a, t).
Proof.
  intros Ha Ht. induction Ha as [|c a Hc Ha IH]; cbn [app].
  - destruct t as [|c t]; [reflexivity|]. cbn [span]. now rewrite Ht.
  - cbn [span]. now rewrite Hc, IH.
Qed.

Definition pre (a : str) (cr : str * str) : str * str := (a ++ fst cr, snd cr).
Lemma pre_nil l : map (pre []) l = l.
Proof. induction l as [|[a b] l IH]; cbn; [reflexivity|]. now rewrite IH. Qed.
Lemma pre_pre a b l : map (pre a) (map (pre b) l) = map (pre (a ++ b)) l.
Proof. rewrite map_map. apply map_ext. intros [x y]. unfold pre. cbn. now rewrite app_assoc. Qed.
Lemma map_pre_nil a l : map (pre a) l = [] <-> l = [].
Proof. destruct l; cbn; split; congruence. Qed.

Lemma rmatch_seq a b s :
  rmatch (RSeq a b) s = flat_map (fun cr => map (pre (fst cr)) (rmatch b (snd cr))) (rmatch a s).
Proof. reflexivity. Qed.

Lemma flat_map_nil_all {A B} (f : A -> list B) l : (forall x, In x l -> f x = []) -> flat_map f l = [].
Proof.
  induction l as [|x l IH]; intros H; [reflexivity|]. cbn.
  rewrite (H x (or_introl eq_refl)). apply IH. intros y Hy. apply H. now right.
Qed.
Lemma flat_map_map {A B C} (f : B -> list C) (g : A -> B) l :
  flat_map f (map g l) = flat_map (fun x => f (g x)) l.
Proof. induction l as [|x l IH]; cbn; [reflexivity|]. now rewrite IH. Qed.
Lemma map_flat_map {A B C} (f : B -> C) (g : A -> list B) l :
  map f (flat_map g l) = flat_map (fun x => map f (g x)) l.
Proof. induction l as [|x l IH]; cbn; [reflexivity|]. now rewrite map_app, IH. Qed.
Lemma flat_map_flat_map {A B C} (f : B -> list C) (g : A -> list B) l :
  flat_map f (flat_map g l) = flat_map (fun x => flat_map f (g x)) l.
Proof. induction l as [|x l IH]; cbn; [reflexivity|]. now rewrite flat_map_app, IH. Qed.

Lemma rmatch_seq_assoc a b c s : rmatch (RSeq (RSeq a b) c) s = rmatch (RSeq a (RSeq b c)) s.
Proof.
  rewrite !rmatch_seq, flat_map_flat_map.
  apply flat_map_ext. intros [x y]. cbn [fst snd].
  rewrite rmatch_seq, map_flat_map, flat_map_map.
  apply flat_map_ext. intros [v w]. cbn [pre fst snd]. now rewrite pre_pre.
Qed.

Lemma rmatch_seq_chr p b s :
  rmatch (RSeq (RChr p) b) s =
  match s with c :: s' => if p c then map (pre [c]) (rmatch b s') else [] | [] => [] end.
Proof.
  rewrite rmatch_seq. destruct s as [|c s]; cbn [rmatch]; [reflexivity|].
  destruct (p c); cbn; [|reflexivity]. now rewrite app_nil_r.
Qed.
Lemma rmatch_seq_eps b s : rmatch (RSeq REps b) s = rmatch b s.
Proof. rewrite rmatch_seq. cbn. rewrite app_nil_r. apply pre_nil. Qed.
Lemma rmatch_seq_alt a1 a2 b s : rmatch (RSeq (RAlt a1 a2) b) s = rmatch (RSeq a1 b) s ++ rmatch (RSeq a2 b) s.
Proof. rewrite !rmatch_seq. cbn [rmatch]. now rewrite flat_map_app. Qed.
Lemma rmatch_seq_eol b s :
  rmatch (RSeq REol b) s =
  match s with [] => rmatch b s | c :: _ => if (c =? 10)%N then rmatch b s else [] end.
Proof.
  rewrite rmatch_seq. destruct s as [|c s]; cbn [rmatch].
  - cbn. rewrite app_nil_r. apply pre_nil.
  - destruct (c =? 10)%N; cbn; [|reflexivity]. rewrite app_nil_r. apply pre_nil.
Qed.
Lemma rmatch_seq_not a b s :
  rmatch (RSeq (RNot a) b) s = match rmatch a s with [] => rmatch b s | _ => [] end.
Proof.
  rewrite rmatch_seq. cbn [rmatch]. destruct (rmatch a s); cbn; [|reflexivity].
  rewrite app_nil_r. apply pre_nil.
Qed.
Lemma rmatch_seq_ahead a b s :
  rmatch (RSeq (RAhead a) b) s = match rmatch a s with [] => [] | _ => rmatch b s end.
Proof.
  rewrite rmatch_seq. cbn [rmatch]. destruct (rmatch a s); cbn; [reflexivity|].
  rewrite app_nil_r. apply pre_nil.
Qed.

(** What is matched is a prefix. *)
Lemma star_go_split m (Hm : forall s c r, In (c, r) (m s) -> s = c ++ r) n s c r :
  In (c, r) (star_go m n s) -> s = c ++ r.
Proof.
  revert s c r. induction n as [|n IH]; intros s c r H; cbn [star_go] in H.
  - destruct H as [H|[]]. injection H as <- <-. reflexivity.
  - apply in_app_or in H. destruct H as [H|[H|[]]].
    + apply in_flat_map in H. destruct H as [[c1 r1] [H1 H2]]. cbn [fst snd] in H2.
      destruct c1 as [|d c1]; [contradiction|].
      apply in_map_iff in H2. destruct H2 as [[c2 r2] [E H2]]. cbn [fst snd] in E.
      injection E as <- <-. apply Hm in H1. apply IH in H2. subst.
      cbn. now rewrite app_assoc.
    + injection H as <- <-. reflexivity.
Qed.
Lemma lazy_go_split m (Hm : forall s c r, In (c, r) (m s) -> s = c ++ r) n s c r :
  In (c, r) (lazy_go m n s) -> s = c ++ r.
Proof.
  revert s c r. induction n as [|n IH]; intros s c r H; cbn [lazy_go] in H.
  - destruct H as [H|[]]. injection H as <- <-. reflexivity.
  - destruct H as [H|H].
    + injection H as <- <-. reflexivity.
    + apply in_flat_map in H. destruct H as [[c1 r1] [H1 H2]]. cbn [fst snd] in H2.
      destruct c1 as [|d c1]; [contradiction|].
      apply in_map_iff in H2. destruct H2 as [[c2 r2] [E H2]]. cbn [fst snd] in E.
      injection E as <- <-. apply Hm in H1. apply IH in H2. subst.
      cbn. now rewrite app_assoc.
Qed.
Lemma rmatch_split r s c t : In (c, t) (rmatch r s) -> s = c ++ t.
Proof.
  revert s c t. induction r; intros s c t H; cbn [rmatch] in H.
  - destruct H as [H|[]]. injection H as <- <-. reflexivity.
  - destruct s as [|d s]; [contradiction|]. destruct (p d); [|contradiction].
    destruct H as [H|[]]. injection H as <- <-. reflexivity.
  - apply in_flat_map in H. destruct H as [[c1 t1] [H1 H2]].
    apply in_map_iff in H2. destruct H2 as [[c2 t2] [E H2]]. cbn [fst snd] in *.
    injection E as <- <-. apply IHr1 in H1. apply IHr2 in H2. subst. now rewrite app_assoc.
  - apply in_app_or in H. destruct H; auto.
  - eapply star_go_split; [|exact H]. apply IHr.
  - eapply lazy_go_split; [|exact H]. apply IHr.
  - destruct (rmatch r s); [contradiction|]. destruct H as [H|[]]. injection H as <- <-. reflexivity.
  - destruct (rmatch r s); [|contradiction]. destruct H as [H|[]]. injection H as <- <-. reflexivity.
  - destruct s as [|d s]; [|destruct (d =? 10)%N; [|contradiction]];
      destruct H as [H|[]]; injection H as <- <-; reflexivity.
  - destruct s as [|d [|e s]]; [|destruct (d =? 10)%N; [|contradiction]|contradiction];
      destruct H as [H|[]]; injection H as <- <-; reflexivity.
Qed.
Lemma re_match_split r s c t : re_match r s = Some (c, t) -> s = c ++ t.
Proof.
  unfold re_match. destruct (rmatch r s) as [|x l] eqn:E; [discriminate|].
  cbn. intros H. injection H as ->. apply (rmatch_split r). rewrite E. now left.
Qed.

(** Repetition of a character class. *)
Fixpoint chr_star (p : N -> bool) (s : str) : list (str * str) :=
  match s with
  | c :: s' => if p c then map (pre [c]) (chr_star p s') ++ [([], s)] else [([], s)]
  | [] => [([], [])]
  end.
Lemma star_chr_go p n s : (length s <= n)%nat -> star_go (rmatch (RChr p)) n s = chr_star p s.
Proof.
  revert s. induction n as [|n IH]; intros s H.
  - destruct s; [reflexivity|]. cbn in H. lia.
  - cbn [star_go rmatch]. destruct s as [|c s]; [reflexivity|]. cbn [chr_star].
    destruct (p c); [|reflexivity]. cbn [flat_map fst snd]. rewrite app_nil_r.
    rewrite IH by (cbn in H; lia). reflexivity.
Qed.
Lemma rmatch_star_chr p s : rmatch (RStar (RChr p)) s = chr_star p s.
Proof. cbn [rmatch]. now apply star_chr_go. Qed.

Lemma chr_star_hd p s : hd_error (chr_star p s) = Some (span p s).
Proof.
  induction s as [|c s IH]; [reflexivity|]. cbn [chr_star span]. destruct (p c); [|reflexivity].
  destruct (chr_star p s) as [|x l]; [discriminate|]. cbn in *. injection IH as ->.
  destruct (span p s) as [a b]. reflexivity.
Qed.

(** A class repetition followed by something that can not start in the class
    never has to give characters back. *)
Lemma seq_star_chr p b s :
  (forall c t, p c = true -> rmatch b (c :: t) = []) ->
  rmatch (RSeq (RStar (RChr p)) b) s = map (pre (fst (span p s))) (rmatch b (snd (span p s))).
Proof.
  intros Hb. rewrite rmatch_seq, rmatch_star_chr.
  induction s as [|c s IH]; [cbn [chr_star span]; cbn; now rewrite app_nil_r|].
  cbn [chr_star span]. destruct (p c) eqn:E.
  - rewrite flat_map_app. cbn [flat_map fst snd]. rewrite (Hb c s E). cbn [map app].
    rewrite app_nil_r. rewrite flat_map_map.
    transitivity (map (pre [c]) (flat_map (fun cr => map (pre (fst cr)) (rmatch b (snd cr))) (chr_star p s))).
    + rewrite map_flat_map. apply flat_map_ext. intros [x y]. cbn [pre fst snd]. now rewrite pre_pre.
    + rewrite IH. destruct (span p s) as [u v]. cbn [fst snd]. now rewrite pre_pre.
  - cbn [flat_map fst snd]. now rewrite app_nil_r.
Qed.

(** Same when the continuation does match the longest prefix: it is taken first. *)
Lemma seq_star_chr_hd p b s cr l :
  rmatch b (snd (span p s)) = cr :: l ->
  exists l', rmatch (RSeq (RStar (RChr p)) b) s = pre (fst (span p s)) cr :: l'.
Proof.
  intros H. rewrite rmatch_seq, rmatch_star_chr.
  pose proof (chr_star_hd p s) as E. destruct (chr_star p s) as [|x l1]; [discriminate|].
  cbn in E. injection E as ->. cbn [flat_map]. rewrite H. cbn. eauto.
Qed.

(** Removal. *)
Lemma re_remove_skip r n s : re_remove r n s = re_remove r 0 (skipn n s).
Proof.
  revert s. induction n as [|n IH]; intros s; [reflexivity|].
  destruct s as [|c s]; [reflexivity|]. cbn [re_remove skipn]. apply IH.
Qed.
Lemma re_remove_nil r : re_remove r 0 [] = [].
Proof. reflexivity. Qed.
Lemma re_remove_hit r c s m t :
  re_match r (c :: s) = Some (c :: m, t) -> re_remove r 0 (c :: s) = re_remove r 0 t.
Proof.
  intros H. cbn [re_remove]. rewrite H. rewrite re_remove_skip.
  apply re_match_split in H. injection H as ->.
  now rewrite skipn_app, skipn_all, Nat.sub_diag.
Qed.
Lemma re_remove_miss r c s : re_match r (c :: s) = None -> re_remove r 0 (c :: s) = c :: re_remove r 0 s.
Proof. intros H. cbn [re_remove]. now rewrite H. Qed.
