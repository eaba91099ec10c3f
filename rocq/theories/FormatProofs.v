(** Delimiter choice. *)
From Coq Require Import String Ascii List NArith ZArith Bool Lia ZifyBool ZifyN ZifyNat.
From Verif Require Import PyBase PyFacts RegexModel RegexFacts FoldModel ScanModel FormatModel
  FoldSpec FoldProofs FoldProofs2 ScanSpec FormatSpec ScanProofs.
Import ListNotations.
Open Scope nat_scope.

Lemma cmem_In c s : cmem c s = true <-> In c s.
Proof. unfold cmem. rewrite existsb_exists. split; [intros (x & Hx & E); apply N.eqb_eq in E; now subst|intros H; exists c; split; [exact H|apply N.eqb_refl]]. Qed.
Lemma cmem_not c s : cmem c s = false <-> ~ In c s.
Proof. rewrite <- cmem_In. destruct (cmem c s); split; congruence. Qed.
Lemma str_eqb_eq a b : str_eqb a b = true <-> a = b.
Proof.
  revert b. induction a as [|x a IH]; intros [|y b]; cbn; split; try congruence.
  - intros H. apply andb_prop in H. destruct H as [H1 H2]. apply N.eqb_eq in H1. apply IH in H2. congruence.
  - intros H. injection H as -> ->. rewrite N.eqb_refl. cbn. now apply IH.
Qed.
Lemma delim_eqb_eq a b : delim_eqb a b = true <-> a = b.
Proof.
  destruct a as [a|], b as [b|]; cbn; try (split; congruence). rewrite str_eqb_eq. split; congruence.
Qed.
Definition din (d : delim) (l : list delim) : bool := existsb (delim_eqb d) l.
Lemma din_In d l : din d l = true <-> In d l.
Proof.
  unfold din. rewrite existsb_exists. split; [intros (x & Hx & E); apply delim_eqb_eq in E; now subst|].
  intros H. exists d. split; [exact H|now apply delim_eqb_eq].
Qed.
Lemma minus_In d a out : In d (minus a out) <-> In d a /\ ~ In d out.
Proof. unfold minus. rewrite filter_In, negb_true_iff. fold (din d out). rewrite <- (din_In d out). destruct (din d out); intuition congruence. Qed.
Lemma meet_In d a keep : In d (meet a keep) <-> In d a /\ In d keep.
Proof. unfold meet. rewrite filter_In. fold (din d keep). rewrite din_In. tauto. Qed.
Lemma starts_ci_firstn w s : starts_ci w s <-> length w <= length s /\ lower (firstn (length w) s) = w.
Proof.
  split.
  - intros (a & b & -> & <-). unfold lower. rewrite map_length, app_length. split; [lia|].
    rewrite firstn_app, Nat.sub_diag, firstn_all. now rewrite app_nil_r.
  - intros [H1 H2]. exists (firstn (length w) s), (skipn (length w) s). split; [now rewrite firstn_skipn|exact H2].
Qed.
Lemma starts_ci_with w s : starts_ci w s <-> starts_with w (lower s) = true.
Proof.
  rewrite starts_with_spec. split.
  - intros (a & b & -> & <-). exists (lower b). apply map_app.
  - intros [z E]. exists (firstn (length w) s), (skipn (length w) s). split; [now rewrite firstn_skipn|].
    apply (f_equal (firstn (length w))) in E. rewrite firstn_app, Nat.sub_diag, firstn_all, app_nil_r in E. rewrite <- E at 2.
    unfold lower. now rewrite firstn_map.
Qed.

(** The final list, as a conjunction of conditions. *)
Lemma allowed_In g maxout s d :
  In d (allowed g maxout s) <->
  In d (string_delimiters g)
  /\ (length s = 0 -> d <> None)
  /\ ((Z.of_nat (length s) > maxout - 2)%Z \/ In nl s -> In d [d_text; d_tsq; d_tdq])
  /\ ((exists k, In k (u "[]{}" ++ [11; 9; 32]%N ++ u ",") /\ In k s) -> d <> None)
  /\ ((exists c r, s = c :: r /\ In c (u "_$#;(")) -> d <> None)
  /\ (starts_ci (u "data") s \/ starts_ci (u "save") s -> d <> None)
  /\ (starts_ci (u "global") s -> d <> None)
  /\ (In dq s -> d <> d_dq /\ d <> None)
  /\ (In sq s -> d <> d_sq /\ d <> None).
Proof.
  unfold allowed.
  assert (forall (P : Prop) b a out, (b = true <-> P) ->
            (In d (if b then minus a out else a) <-> In d a /\ (P -> ~ In d out))) as Hm.
  { intros P b a out HP. destruct b.
    - rewrite minus_In. intuition.
    - split; [|tauto]. intros H. split; [exact H|]. intros H1. apply HP in H1. discriminate. }
  assert (forall (P : Prop) b a keep, (b = true <-> P) ->
            (In d (if b then meet a keep else a) <-> In d a /\ (P -> In d keep))) as Hk.
  { intros P b a keep HP. destruct b.
    - rewrite meet_In. intuition.
    - split; [|tauto]. intros H. split; [exact H|]. intros H1. apply HP in H1. discriminate. }
  rewrite (Hm (In sq s)) by apply cmem_In. rewrite (Hm (In dq s)) by apply cmem_In.
  rewrite (Hm (starts_ci (u "global") s)).
  2:{ rewrite starts_ci_firstn, andb_true_iff, str_eqb_eq. change (length (u "global")) with 6. split; intros [A B]; split; try exact B; lia. }
  rewrite (Hm (starts_ci (u "data") s \/ starts_ci (u "save") s)).
  2:{ rewrite !starts_ci_firstn, andb_true_iff, orb_true_iff, !str_eqb_eq. change (length (u "data")) with 4. change (length (u "save")) with 4.
      split; [intros [A [B|B]]; [left|right]; split; try exact B; lia|intros [[A B]|[A B]]; split; try tauto; lia]. }
  rewrite (Hm (exists c r, s = c :: r /\ In c (u "_$#;("))).
  2:{ destruct s as [|c r]; [split; [discriminate|intros (c & r & H & _); discriminate]|]. rewrite cmem_In.
      split; [eauto|]. intros (c' & r' & E & H). injection E as -> ->. exact H. }
  rewrite (Hm (exists k, In k (u "[]{}" ++ [11; 9; 32]%N ++ u ",") /\ In k s)).
  2:{ rewrite existsb_exists. split; intros (k & H1 & H2); exists k; split; try exact H1; now apply cmem_In. }
  rewrite (Hk ((Z.of_nat (length s) > maxout - 2)%Z \/ In nl s)).
  2:{ rewrite orb_true_iff, cmem_In. split; (intros [H|H]; [left; lia|now right]). }
  rewrite (Hm (length s = 0)).
  2:{ apply Nat.eqb_eq. }
  cbn [In]. clear Hm Hk. intuition congruence.
Qed.

Lemma in_delims g d : In d (string_delimiters g) <->
  In d [d_sq; d_dq; d_text; None] \/ ((g = G20 \/ g = GS2) /\ In d [d_tdq; d_tsq]).
Proof.
  unfold string_delimiters. rewrite in_app_iff. destruct g; cbn [In]; intuition congruence.
Qed.
Lemma allowed_admissible g maxout s d : In d (allowed g maxout s) <-> admissible g maxout d s.
Proof.
  rewrite allowed_In, in_delims. unfold d_sq, d_dq, d_text, d_tsq, d_tdq, sq, dq, nl, semi. unfold admissible, short.
  destruct d as [q|].
  - assert (forall P : Prop, (P -> Some q <> None) <-> True) as Hn by (intros P; split; [tauto|discriminate]).
    rewrite !Hn. cbn [In].
    destruct q as [|a [|b [|c [|x y]]]].
    + intuition discriminate.
    + unfold QS, QD, NL, has_triples. split.
      * intros (H1 & _ & H2 & _ & _ & _ & _ & H3 & H4).
        assert (a = 39%N \/ a = 34%N) as Ha by (intuition congruence).
        split; [exact Ha|]. split; [destruct (Z.of_nat (length s) >? maxout - 2)%Z eqn:E; [|lia]; exfalso; destruct H2 as [H2|[H2|[H2|[]]]]; try discriminate; left; lia|].
        split; [intros H; destruct H2 as [H2|[H2|[H2|[]]]]; try discriminate; now right|].
        destruct Ha as [->| ->]; intros H; [now apply H4 in H|now apply H3 in H].
      * intros (Ha & H1 & H2 & H3). split; [left; destruct Ha as [->| ->]; tauto|]. split; [exact I|].
        split; [intros [H|H]; [lia|tauto]|]. do 4 (split; [exact I|]). split.
        -- intros H. split; [|discriminate]. intros E. injection E as ->. tauto.
        -- intros H. split; [|discriminate]. intros E. injection E as ->. tauto.
    + unfold NL, SC. split.
      * intros (H1 & _). assert (Some [10; 59]%N = Some [a; b]) as E by intuition congruence. injection E as <- <-. tauto.
      * intros [-> ->]. repeat (split; try tauto); try discriminate; intros; try (right; left; reflexivity); tauto.
    + unfold has_triples, QS, QD. split.
      * intros (H1 & _). destruct H1 as [H1|[Hg H1]]; [intuition discriminate|]. split; [exact Hg|].
        destruct H1 as [H1|[H1|[]]]; injection H1 as <- <- <-; tauto.
      * intros (Hg & <- & <- & Ha). split; [right; split; [exact Hg|]; destruct Ha as [->| ->]; tauto|].
        split; [exact I|]. split; [intros _; destruct Ha as [->| ->]; tauto|]. repeat (split; try exact I); discriminate.
    + intuition discriminate.
  - split.
    + intros (_ & H1 & H2 & H3 & H4 & H5 & H6 & H7 & H8).
      split; [intros ->; now apply H1|].
      split; [destruct (Z.of_nat (length s) >? maxout - 2)%Z eqn:E; [|lia]; exfalso; destruct H2 as [H2|[H2|[H2|[]]]]; try discriminate; left; lia|].
      split; [intros H; destruct H2 as [H2|[H2|[H2|[]]]]; try discriminate; now right|].
      split.
      { intros c Hc Hs. unfold never_plain in Hc. rewrite !in_app_iff in Hc.
        destruct Hc as [Hc|[Hc|[Hc|Hc]]].
        - apply H3; [|reflexivity]. exists c. rewrite !in_app_iff. tauto.
        - apply H3; [|reflexivity]. exists c. rewrite !in_app_iff. tauto.
        - apply H3; [|reflexivity]. exists c. rewrite !in_app_iff. tauto.
        - unfold QS, QD in Hc. destruct Hc as [<-|[<-|[]]]; [now apply H8 in Hs|now apply H7 in Hs]. }
      split; [intros c r E Hc; apply H4; [eauto|reflexivity]|].
      split; [intros H; apply H5; tauto|]. split; [intros H; apply H5; tauto|]. intros H. now apply H6.
    + intros (H1 & H2 & H3 & H4 & H5 & H6 & H7 & H8). split; [left; cbn; tauto|].
      split; [intros E; destruct s; [congruence|discriminate]|].
      split; [intros [H|H]; [lia|tauto]|].
      split; [intros (k & Hk & Hs); exfalso; apply (H4 k); [|exact Hs]; unfold never_plain; rewrite !in_app_iff in *; tauto|].
      split; [intros (c & r & E & Hc); exfalso; now apply (H5 c r E)|].
      split; [tauto|]. split; [tauto|].
      split; intros H; exfalso; eapply H4; try exact H; cbn; tauto.
Qed.

(** ** The choice *)
Lemma choose_spec g maxout req s :
  let d := choose req (allowed g maxout s) in
  admissible g maxout d s
  /\ (admissible g maxout req s -> d = req)
  /\ (~ admissible g maxout req s ->
      (admissible g maxout (Some [QS]) s /\ d = Some [QS])
      \/ (~ admissible g maxout (Some [QS]) s /\ admissible g maxout (Some [QD]) s /\ d = Some [QD])
      \/ (~ admissible g maxout (Some [QS]) s /\ ~ admissible g maxout (Some [QD]) s /\ d = Some [NL; SC])).
Proof.
  cbv zeta. unfold choose. fold (din req (allowed g maxout s)). fold (din d_sq (allowed g maxout s)). fold (din d_dq (allowed g maxout s)).
  assert (forall d, din d (allowed g maxout s) = true <-> admissible g maxout d s) as H
    by (intros d; rewrite din_In; apply allowed_admissible).
  assert (forall d, din d (allowed g maxout s) = false -> ~ admissible g maxout d s) as H'
    by (intros d E A; apply H in A; congruence).
  destruct (din req (allowed g maxout s)) eqn:E1.
  - apply H in E1. tauto.
  - apply H' in E1. destruct (din d_sq (allowed g maxout s)) eqn:E2.
    + apply H in E2. split; [exact E2|]. split; [tauto|]. intros _. left. split; [exact E2|reflexivity].
    + apply H' in E2. destruct (din d_dq (allowed g maxout s)) eqn:E3.
      * apply H in E3. split; [exact E3|]. split; [tauto|]. intros _. right. left. split; [exact E2|]. split; [exact E3|reflexivity].
      * apply H' in E3. split; [cbn; tauto|]. split; [tauto|]. intros _. right. right. split; [exact E2|]. split; [exact E3|reflexivity].
Qed.
