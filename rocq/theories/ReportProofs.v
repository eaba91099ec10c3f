(** Validate. *)
From Coq Require Import String Ascii List NArith ZArith Bool Permutation Lia.
From Verif Require Import PyBase PyFacts StarBlockModel StarBlockSpec StarBlockProofs StarBlockProofs2 StarBlockProofs3 StarBlockProofs5 ValidateModel ValidBlockModel ValidBlockSpec ValidBlockProofs ReportModel ReportSpec.
Import ListNotations.
Open Scope nat_scope.

Definition keep (ks : list str) (k : str) : bool := negb (mem str_eqb k ks).
Lemma keep_in ks k : keep ks k = true <-> ~ In k ks.
Proof. unfold keep. rewrite negb_true_iff. apply (mem_false _ str_eqb_spec). Qed.
Lemma filter_filter {A} (f g : A -> bool) l : filter f (filter g l) = filter (fun x => g x && f x) l.
Proof. induction l as [|x l IH]; [reflexivity|]. cbn [filter]. destruct (g x); cbn [andb filter]; rewrite IH; reflexivity. Qed.
Lemma filter_all {A} (f : A -> bool) l : (forall x, In x l -> f x = true) -> filter f l = l.
Proof. intros H. induction l as [|x l IH]; [reflexivity|]. cbn [filter]. rewrite (H x (or_introl eq_refl)), IH; [reflexivity|]. intros y Y. apply H. now right. Qed.
Lemma cols_keys b no cols c : WF b -> In (no, cols) (b_loops b) -> In c cols -> In c (b_keys b).
Proof.
  intros W I1 I2. eapply Permutation_in; [apply (wf_place b W)|]. apply in_or_app. right. apply in_concat. exists cols. split; [|exact I2]. change cols with (snd (no, cols)). now apply in_map.
Qed.
Lemma without_one k cols : lower k = k -> without [k] cols = filter (keep [k]) cols.
Proof. intros E. unfold without, keep. cbn [map]. now rewrite E. Qed.

(** The block [b'] is [b] without the names [ks]. *)
Record less (ks : list str) (b b' : block) : Prop := mkLess {
  l_wf : WF b';
  l_keys : b_keys b' = filter (keep ks) (b_keys b);
  l_values : forall k, ~ In (lower k) ks -> get_item k b' = get_item k b;
  l_loops : forall no cols, In (no, cols) (b_loops b') <->
    exists cols0, In (no, cols0) (b_loops b) /\ cols = filter (keep ks) cols0 /\ (cols <> [] \/ cols0 = [])
}.
Lemma keep_nil l : filter (keep []) l = l.
Proof. now apply filter_all. Qed.
Lemma keep_cons k ks l : filter (keep (k :: ks)) l = filter (keep ks) (filter (keep [k]) l).
Proof.
  rewrite filter_filter. apply filter_ext. intros x. unfold keep. cbn [mem]. unfold mem. cbn [existsb]. destruct (str_eqb x k); cbn; [reflexivity|now rewrite ?andb_true_r].
Qed.
Lemma less_nil b : WF b -> less [] b b.
Proof.
  intros W. split; [exact W|now rewrite keep_nil|reflexivity|]. intros no cols. split.
  - intros H. exists cols. rewrite keep_nil. split; [exact H|]. split; [reflexivity|]. destruct cols; [now right|left; discriminate].
  - intros (c0 & H & -> & _). now rewrite keep_nil.
Qed.
Lemma less_one k b : WF b -> lower k = k -> snd (remove_item k b) = Ret tt /\ less [k] b (fst (remove_item k b)).
Proof.
  intros W E. destruct (has_key k b) eqn:HK.
  - destruct (remove_item_effect k b W HK) as [R Q]. split; [exact R|]. split.
    + now apply remove_item_wf.
    + unfold b_keys. rewrite remove_item_data, E, (dkeys_ddel str_eqb str_eqb_spec). fold (b_keys b). rewrite (remove1_NoDup_filter str_eqb str_eqb_spec) by apply (wf_keys b W).
      apply filter_ext. intros x. unfold keep, mem. cbn [existsb]. rewrite orb_false_r. f_equal. destruct (str_eqb_spec k x), (str_eqb_spec x k); congruence.
    + intros x N. apply (ir_values _ _ _ Q). intros X. apply N. left. now rewrite X.
    + intros no cols. rewrite (ir_loops _ _ _ Q). rewrite E. split; intros (c0 & I1 & -> & C); exists c0; (split; [exact I1|]); rewrite (without_one _ _ E) in *; (split; [reflexivity|]).
      * destruct (filter (keep [k]) c0) as [|x r] eqn:F; [right|left; discriminate]. assert (~ In k c0) as N by (intros X; now apply (C X)).
        rewrite filter_all in F; [exact F|]. intros y Y. apply keep_in. intros [<-|[]]. contradiction.
      * intros X. destruct C as [C|C]; [exact C|subst c0; destruct X].
  - rewrite (remove_item_absent k b HK). cbn [fst snd]. split; [reflexivity|].
    assert (~ In k (b_keys b)) as NK. { intros X. unfold has_key in HK. rewrite E in HK. apply (dmem_In str_eqb str_eqb_spec) in X. congruence. }
    assert (forall l, (forall x, In x l -> In x (b_keys b)) -> filter (keep [k]) l = l) as F. { intros l L. apply filter_all. intros x X. apply keep_in. intros [<-|[]]. apply NK. now apply L. }
    split; [exact W|rewrite F; auto|reflexivity|]. intros no cols. split.
    + intros H. exists cols. rewrite F; [|intros x; now apply (cols_keys b no)]. split; [exact H|]. split; [reflexivity|]. destruct cols; [now right|left; discriminate].
    + intros (c0 & H & -> & _). rewrite F; [exact H|intros x; now apply (cols_keys b no)].
Qed.
Lemma less_trans k ks b b1 b2 : less [k] b b1 -> less ks b1 b2 -> less (k :: ks) b b2.
Proof.
  intros A B. split; [apply (l_wf _ _ _ B)| | |].
  - rewrite (l_keys _ _ _ B), (l_keys _ _ _ A), (keep_cons k ks). reflexivity.
  - intros x N. rewrite (l_values _ _ _ B), (l_values _ _ _ A); [reflexivity| |]; intros X; apply N; [destruct X as [<-|[]]; now left|now right].
  - intros no cols. rewrite (l_loops _ _ _ B). split.
    + intros (c1 & H & -> & C). apply (l_loops _ _ _ A) in H as (c0 & H & -> & C0). exists c0. rewrite (keep_cons k ks). split; [exact H|]. split; [reflexivity|].
      destruct C as [C|C]; [now left|]. destruct C0 as [C0|C0]; [contradiction|now right].
    + intros (c0 & H & -> & C). exists (filter (keep [k]) c0). rewrite (keep_cons k ks) in *. split; [|split; [reflexivity|]].
      * apply (l_loops _ _ _ A). exists c0. split; [exact H|]. split; [reflexivity|]. destruct C as [C|C]; [left|now right]. intros X. rewrite X in C. now apply C.
      * destruct C as [C|C]; [now left|right]. now subst c0.
Qed.
Lemma remove_all_less ks : forall b, WF b -> (forall k, In k ks -> lower k = k) -> exists b', remove_all ks b = (b', Ret tt) /\ less ks b b'.
Proof.
  induction ks as [|k ks IH]; intros b W L.
  - exists b. split; [reflexivity|now apply less_nil].
  - destruct (less_one k b W (L k (or_introl eq_refl))) as [R Q]. cbn [remove_all]. destruct (remove_item k b) as [b1 o]. cbn [fst snd] in R, Q. subst o.
    destruct (IH b1 (l_wf _ _ _ Q)) as (b2 & E & Q2); [intros x X; apply L; now right|]. exists b2. split; [exact E|]. exact (less_trans _ _ _ _ _ Q Q2).
Qed.

Section Dic.
Context (d : vdic).
Definition missing (b : block) : list str := filter (fun a => negb (v_in d a)) (b_keys b).
Lemma missing_unknown b : WF b -> unknown d b (missing b).
Proof.
  intros W. split; [apply NoDup_filter, (wf_keys b W)|]. intros k. unfold missing. rewrite filter_In, negb_true_iff. reflexivity.
Qed.
Lemma missing_keep b k : In k (b_keys b) -> keep (missing b) k = v_in d k.
Proof.
  intros H. destruct (v_in d k) eqn:V.
  - apply keep_in. unfold missing. rewrite filter_In, V. now intros [_ X].
  - unfold keep. apply negb_false_iff, (mem_In _ str_eqb_spec). unfold missing. apply filter_In. rewrite V. now split.
Qed.
Lemma less_known b b' : WF b -> less (missing b) b b' -> only_known d b b'.
Proof.
  intros W Q. split.
  - apply (l_wf _ _ _ Q).
  - rewrite (l_keys _ _ _ Q). apply filter_ext_in. intros k K. now apply missing_keep.
  - intros k V. apply (l_values _ _ _ Q). intros X. apply (missing_unknown b W) in X as [_ X]. congruence.
  - intros k V. destruct (has_key k b') eqn:HK; [|reflexivity]. exfalso. unfold has_key, dmem in HK. destruct (dget str_eqb (lower k) (b_data b')) as [v|] eqn:G; [|discriminate].
    apply (dget_In _ str_eqb_spec) in G. assert (In (lower k) (b_keys b')) as X by (change (lower k) with (fst (lower k, v)); now apply in_map).
    rewrite (l_keys _ _ _ Q) in X. apply filter_In in X as [X1 X2]. rewrite (missing_keep b _ X1) in X2. congruence.
  - intros no cols. rewrite (l_loops _ _ _ Q). split; intros (c0 & H & -> & C); exists c0; (split; [exact H|]).
    + assert (filter (keep (missing b)) c0 = filter (v_in d) c0) as E by (apply filter_ext_in; intros c X; apply missing_keep; now apply (cols_keys b no c0)). rewrite E in *. now split.
    + assert (filter (keep (missing b)) c0 = filter (v_in d) c0) as E by (apply filter_ext_in; intros c X; apply missing_keep; now apply (cols_keys b no c0)). rewrite E in *. now split.
Qed.
Lemma check_one_known b : WF b -> exists b', only_known d b b' /\ check_one d b = (b', missing b, block_checks d b').
Proof.
  intros W. destruct (remove_all_less (missing b) b W) as (b' & E & Q). { intros k K. apply (wf_low b W). now apply (missing_unknown b W) in K. }
  exists b'. split; [now apply less_known|]. unfold check_one. fold (missing b). now rewrite E.
Qed.
Lemma known_missing b b' : only_known d b b' -> missing b' = [].
Proof.
  intros Q. unfold missing. rewrite (k_keys _ _ _ Q), filter_filter. induction (b_keys b) as [|k l IH]; [reflexivity|]. cbn [filter]. rewrite andb_negb_r. exact IH.
Qed.
Lemma check_one_again b b' : only_known d b b' -> check_one d b' = (b', [], block_checks d b').
Proof. intros Q. unfold check_one. fold (missing b'). now rewrite (known_missing _ _ Q). Qed.

(** A file that was validated: before, afterwards, results and names not found. *)
Theorem validate_ret f f' vr nm : Forall (fun x => WF (snd x)) f -> validate d f = (f', Ret (vr, nm)) ->
  Forall2 (fun x x' => fst x' = fst x /\ only_known d (snd x) (snd x')) f f'
  /\ Forall2 (fun x' r => fst r = fst x' /\ block_checks d (snd x') = Ret (snd r)) f' vr
  /\ Forall2 (fun x m => fst m = fst x /\ unknown d (snd x) (snd m)) f nm.
Proof.
  intros W. revert f' vr nm. induction W as [|[n b] f Wb W IH]; intros f' vr nm H; cbn [validate] in H.
  - injection H as <- <- <-. repeat split; constructor.
  - cbn [snd] in Wb. destruct (check_one_known b Wb) as (b' & Q & E). rewrite E in H. destruct (block_checks d b') as [x|e] eqn:C; [|discriminate H].
    destruct (validate d f) as [r' o]. destruct o as [[vr0 nm0]|e]; [|discriminate H]. cbn [obind fst snd] in H. injection H as <- <- <-.
    destruct (IH _ _ _ eq_refl) as (A & B & D). split; [|split].
    + constructor; [|exact A]. cbn [fst snd]. now split.
    + constructor; [|exact B]. cbn [fst snd]. now split.
    + constructor; [|exact D]. cbn [fst snd]. split; [reflexivity|now apply missing_unknown].
Qed.
Theorem validate_raise f f' e : Forall (fun x => WF (snd x)) f -> validate d f = (f', Raise e) ->
  (exists n b b', In (n, b) f /\ only_known d b b' /\ block_checks d b' = Raise e)
  /\ Forall2 (fun x x' => fst x' = fst x /\ (snd x' = snd x \/ only_known d (snd x) (snd x'))) f f'.
Proof.
  intros W. revert f'. induction W as [|[n b] f Wb W IH]; intros f' H; cbn [validate] in H; [discriminate H|].
  cbn [snd] in Wb. destruct (check_one_known b Wb) as (b' & Q & E). rewrite E in H. destruct (block_checks d b') as [x|e0] eqn:C.
  - destruct (validate d f) as [r' o] eqn:V. destruct o as [[vr0 nm0]|e1]; [discriminate H|]. injection H as <- <-. destruct (IH _ eq_refl) as [(m & c & c' & A & B & D) F].
    split; [exists m, c, c'; split; [now right|now split]|]. constructor; [cbn [fst snd]; split; [reflexivity|now right]|exact F].
  - injection H as <- <-. split; [exists n, b, b'; split; [now left|now split]|]. constructor; [cbn [fst snd]; split; [reflexivity|now right]|].
    clear. induction f as [|y f IH]; constructor; auto.
Qed.
Theorem validate_again f f' vr nm : Forall (fun x => WF (snd x)) f -> validate d f = (f', Ret (vr, nm)) ->
  validate d f' = (f', Ret (vr, map (fun m => (fst m, [])) nm)).
Proof.
  intros W. revert f' vr nm. induction W as [|[n b] f Wb W IH]; intros f' vr nm H; cbn [validate] in H.
  - injection H as <- <- <-. reflexivity.
  - cbn [snd] in Wb. destruct (check_one_known b Wb) as (b' & Q & E). rewrite E in H. destruct (block_checks d b') as [x|e] eqn:C; [|discriminate H].
    destruct (validate d f) as [r' o]. destruct o as [[vr0 nm0]|e]; [|discriminate H]. cbn [obind fst snd] in H. injection H as <- <- <-.
    cbn [validate]. rewrite (check_one_again _ _ Q), C, (IH _ _ _ eq_refl). reflexivity.
Qed.
Lemma verdict_ok b x : no_empty_loop b -> block_checks d b = Ret x -> (fst x = true <-> block_ok d b).
Proof.
  intros N C. assert (Forall (fun kl => snd kl <> []) (b_loops b)) as N1. { apply Forall_forall. intros [k c] K. exact (N k c K). }
  pose proof (valid_init_exact d b b N1) as V. unfold valid_init in V. rewrite C in V. cbn [obind] in V. destruct (fst x).
  - split; [intros _; now apply V|reflexivity].
  - split; [discriminate|]. intros K. assert (Raise CifErr = Ret b) as X by (apply V; now split). discriminate.
Qed.
Lemma known_no_empty b b' : no_empty_loop b -> only_known d b b' -> no_empty_loop b'.
Proof. intros N Q k cols H. apply (k_loops _ _ _ Q) in H as (c0 & H & -> & [C|C]); [exact C|]. subst c0. now destruct (N k [] H). Qed.
End Dic.
