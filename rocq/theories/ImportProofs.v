From Coq Require Import String Ascii List NArith Bool Lia.
From Verif Require Import PyBase PyFacts StarBlockModel ValidateModel TreeModel ImportModel ImportSpec.
Import ListNotations.
Open Scope nat_scope.

Lemma target_unique cache r t t' : target_of cache r t -> target_of cache r t' -> t = t'.
Proof. intros (f & dic & k & H1 & H2 & H3 & H4) (f' & dic' & k' & K1 & K2 & K3 & K4). congruence. Qed.
Lemma gives_dec cache r name : (exists v, gives cache r name v) \/ (forall v, ~ gives cache r name v).
Proof.
  destruct (r_file r) as [f|] eqn:E1; [|right; intros v (t & (f & dic & k & H1 & _) & _); congruence].
  destruct (dget str_eqb f cache) as [dic|] eqn:E2; [|right; intros v (t & (f' & dic & k & H1 & H2 & _) & _); congruence].
  destruct (r_save r) as [k|] eqn:E3; [|right; intros v (t & (f' & dic' & k & H1 & H2 & H3 & _) & _); congruence].
  destruct (dget str_eqb (lower k) dic) as [t|] eqn:E4; [|right; intros v (t & (f' & dic' & k' & H1 & H2 & H3 & H4) & _); congruence].
  assert (target_of cache r t) as T by (exists f, dic, k; auto).
  destruct (str_eqb_spec (lower (r_mode r)) (u "contents")) as [M|M]; [|right; intros v (t' & _ & K & _); contradiction].
  destruct (dget str_eqb (lower name) (b_attrs t)) as [v|] eqn:E5; [left; exists v, t; auto|]. right. intros v (t' & T' & _ & K). rewrite <- (target_unique _ _ _ _ T T') in K. congruence.
Qed.
Lemma last_dec cache refs name : (exists v, last_gives cache refs name v) \/ (forall r v, In r refs -> ~ gives cache r name v).
Proof.
  induction refs as [|r refs IH] using rev_ind; [right; intros r v []|]. destruct (gives_dec cache r name) as [(v & G)|N].
  - left. exists v, refs, r, []. split; [reflexivity|]. split; [exact G|]. intros r' v' [].
  - destruct IH as [(v & l & r0 & l' & E & G & H)|H].
    + left. exists v, l, r0, (l' ++ [r]). split; [rewrite E, <- app_assoc; reflexivity|]. split; [exact G|]. intros r' v' K. apply in_app_or in K. destruct K as [K|[<-|[]]]; [now apply H|apply N].
    + right. intros r' v' K. apply in_app_or in K. destruct K as [K|[<-|[]]]; [now apply H|apply N].
Qed.
(** A read of a definition never depends on its imports if it has the name. *)
Lemma follow_ok (get : dicblock -> str -> outcome value) cache name : forall refs latest,
  (forall r, In r refs -> resolves cache r) ->
  (forall r t v, In r refs -> target_of cache r t -> own t name = Some v -> get t name = Ret v) ->
  exists res, follow_import get cache refs name latest = Ret res
    /\ (forall v, last_gives cache refs name v -> res = Some v) /\ ((forall r v, In r refs -> ~ gives cache r name v) -> res = latest).
Proof.
  induction refs as [|r refs IH]; intros latest R G.
  - exists latest. split; [reflexivity|]. split; [|reflexivity]. intros v (l & r & l' & E & _). now destruct l.
  - cbn [follow_import]. destruct (R r (or_introl eq_refl)) as (f & dic & k & E1 & E2 & E3 & E4). rewrite E1, E2, E3.
    assert (forall x, (forall v, ~ gives cache r name v) -> follow_import get cache refs name latest = x -> exists res, x = Ret res /\ (forall v, last_gives cache (r :: refs) name v -> res = Some v) /\ ((forall r0 v, In r0 (r :: refs) -> ~ gives cache r0 name v) -> res = latest)) as Skip.
    { intros x N <-. destruct (IH latest) as (res & Er & H1 & H2); [intros r' H; apply R; now right|intros r' t v H; apply G; now right|]. exists res. split; [exact Er|]. split.
      - intros v (l & r0 & l' & E & Gv & Nv). destruct l as [|x l]; [injection E as -> ->; now elim (N v)|]. injection E as -> E. apply H1. exists l, r0, l'. auto.
      - intros K. apply H2. intros r0 v H. apply K. now right. }
    destruct (dget str_eqb (lower k) dic) as [t|] eqn:E5.
    + assert (target_of cache r t) as T by (exists f, dic, k; auto). destruct (str_eqb_spec (lower (r_mode r)) (u "contents")) as [M|M].
      * unfold own in *. destruct (dget str_eqb (lower name) (b_attrs t)) as [v|] eqn:E6.
        -- rewrite (G r t v (or_introl eq_refl) T E6). cbn [obind]. destruct (IH (Some v)) as (res & Er & H1 & H2); [intros r' H; apply R; now right|intros r' t' v' H; apply G; now right|]. exists res. split; [exact Er|].
           assert (gives cache r name v) as Gr by (exists t; auto). split.
           ++ intros w (l & r0 & l' & E & Gv & Nv). destruct l as [|x l].
              ** injection E as -> ->. rewrite H2; [|intros r1 v1 K; now apply Nv]. destruct Gv as (t' & T' & _ & K'). rewrite <- (target_unique _ _ _ _ T T') in K'. congruence.
              ** injection E as -> E. apply H1. exists l, r0, l'. auto.
           ++ intros K. elim (K r v); [now left|exact Gr].
        -- apply Skip; [|reflexivity]. intros v (t' & T' & _ & K). rewrite <- (target_unique _ _ _ _ T T') in K. congruence.
      * apply Skip; [|reflexivity]. intros v (t' & _ & K & _). contradiction.
    + destruct (str_eqb_spec (r_miss r) (u "Exit")) as [M|M]; [now elim (E4 eq_refl)|]. apply Skip; [|reflexivity]. intros v (t' & (f' & dic' & k' & K1 & K2 & K3 & K4) & _). congruence.
Qed.
Lemma get_own n : forall b name v, ready n b -> own b name = Some v -> dic_getitem n b name = Ret v.
Proof.
  induction n as [|n IH]; intros b name v R O; [destruct R|]. cbn [dic_getitem]. destruct (b_imports b) as [refs|] eqn:E; [|cbn [obind]; now rewrite O]. destruct (is_empty (b_cache b)) eqn:Ec; [cbn [obind]; now rewrite O|].
  assert (b_cache b <> []) as Nc by (intros K; rewrite K in Ec; discriminate). pose proof (R refs E Nc) as R'.
  destruct (follow_ok (dic_getitem n) (b_cache b) name refs None) as (res & -> & _); [intros r H; now apply R'|intros r t w H T Ot; apply IH; [now apply (R' r H)|exact Ot]|]. cbn [obind]. now rewrite O.
Qed.
Lemma get_imported n b refs name : ready n b -> b_imports b = Some refs -> b_cache b <> [] -> own b name = None ->
  (forall v, last_gives (b_cache b) refs name v -> dic_getitem n b name = Ret v)
  /\ ((forall r v, In r refs -> ~ gives (b_cache b) r name v) -> dic_getitem n b name = Raise KeyErr).
Proof.
  destruct n as [|n]; intros R E Nc O; [destruct R|]. cbn [dic_getitem]. rewrite E, O. assert (is_empty (b_cache b) = false) as -> by (destruct (b_cache b); [now elim Nc|reflexivity]). pose proof (R refs E Nc) as R'.
  destruct (follow_ok (dic_getitem n) (b_cache b) name refs None) as (res & -> & H1 & H2); [intros r H; now apply R'|intros r t w H T Ot; apply get_own; [now apply (R' r H)|exact Ot]|]. cbn [obind]. split.
  - intros v L. now rewrite (H1 v L).
  - intros K. now rewrite (H2 K).
Qed.
Lemma get_plain n b name : (b_imports b = None \/ b_cache b = []) -> dic_getitem (S n) b name = match own b name with Some v => Ret v | None => Raise KeyErr end.
Proof. intros H. cbn [dic_getitem]. destruct H as [-> | ->]; [|destruct (b_imports b); cbn [is_empty]]; cbn [obind]; destruct (own b name); reflexivity. Qed.
(** Whatever happens with the imports, a result for an own name is the own value. *)
Lemma get_own_wins n b name v w : own b name = Some v -> dic_getitem n b name = Ret w -> w = v.
Proof.
  destruct n as [|n]; [discriminate|]. intros O E. cbn [dic_getitem] in E. rewrite O in E. destruct (match b_imports b with Some refs => _ | None => _ end); [|discriminate]. cbn [obind] in E. congruence.
Qed.
