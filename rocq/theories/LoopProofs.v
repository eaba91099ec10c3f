(** Proofs about row access to loops. *)
From Coq Require Import String Ascii List NArith ZArith Bool Lia Permutation ZifyBool ZifyNat ZifyN.
From Verif Require Import PyBase PyFacts StarBlockModel StarBlockSpec StarBlockProofs StarBlockProofs2
  StarBlockProofs3 StarBlockProofs4 StarBlockProofs5 LoopModel LoopSpec.
Import ListNotations.

(** Induction over data values. *)
Fixpoint value_rect' (P : value -> Prop)
  (Hs : forall s, P (VStr s)) (Hn : forall s, P (VNum s)) (H0 : P VNone)
  (Hl : forall l, Forall P l -> P (VList l)) (Hsl : forall l, Forall P l -> P (VSL l))
  (Hd : forall d, Forall (fun kv => P (snd kv)) d -> P (VDict d)) (v : value) : P v :=
  let rec := value_rect' P Hs Hn H0 Hl Hsl Hd in
  match v with
  | VStr s => Hs s
  | VNum s => Hn s
  | VNone => H0
  | VList l => Hl l ((fix go l := match l return Forall P l with
                                  | [] => Forall_nil _ | x :: r => Forall_cons _ (rec x) (go r) end) l)
  | VSL l => Hsl l ((fix go l := match l return Forall P l with
                                  | [] => Forall_nil _ | x :: r => Forall_cons _ (rec x) (go r) end) l)
  | VDict d => Hd d ((fix go d := match d return Forall (fun kv => P (snd kv)) d with
                                  | [] => Forall_nil _ | x :: r => Forall_cons _ (rec (snd x)) (go r) end) d)
  end.

Fixpoint py_eql (x y : list value) : bool :=
  match x, y with
  | [], [] => true
  | p :: x', q :: y' => py_eq p q && py_eql x' y'
  | _, _ => false
  end.
Lemma py_eq_list a b x y : (a = VList x \/ a = VSL x) -> (b = VList y \/ b = VSL y) -> py_eq a b = py_eql x y.
Proof.
  intros Ha Hb. assert (py_eq (VList x) (VList y) = py_eql x y) as H by reflexivity.
  destruct Ha as [-> | ->], Hb as [-> | ->]; exact H.
Qed.

Lemma py_eql_spec l : Forall (fun a => forall b, py_eq a b = true <-> same_value a b) l ->
  forall m, py_eql l m = true <-> Forall2 same_value l m.
Proof.
  induction 1 as [|a l Ha Hl IH]; intros m; destruct m as [|b m]; cbn [py_eql].
  - split; [constructor|reflexivity].
  - split; [discriminate|intros H; inversion H].
  - split; [discriminate|intros H; inversion H].
  - rewrite andb_true_iff, Ha, IH. split.
    + intros [H1 H2]. now constructor.
    + intros H. inversion H; subst. now split.
Qed.
Lemma py_eq_listlike a l : (a = VList l \/ a = VSL l) ->
  Forall (fun a => forall b, py_eq a b = true <-> same_value a b) l ->
  forall b, py_eq a b = true <-> same_value a b.
Proof.
  intros Ha Hl b. pose proof (py_eql_spec l Hl) as H. split.
  - intros E. assert (exists m, b = VList m \/ b = VSL m) as [m Hm].
    { destruct Ha as [-> | ->]; destruct b; try discriminate; eauto. }
    rewrite (py_eq_list _ _ _ _ Ha Hm) in E. apply H in E. eapply sv_list; eauto.
  - intros E. inversion E as [s|s| |x y l' m Hx Hy HF|d e He Hd]; subst; try (intuition discriminate).
    assert (l' = l) as -> by (destruct Ha as [-> | ->]; destruct Hx as [Hx|Hx]; congruence).
    rewrite (py_eq_list _ _ _ _ Ha Hy). now apply H.
Qed.

Lemma py_eq_spec a : forall b, py_eq a b = true <-> same_value a b.
Proof.
  induction a as [s|s| |l IH|l IH|d IH] using value_rect'; intros b.
  - split.
    + destruct b; try discriminate. cbn. destruct (str_eqb_spec s s0); [subst; constructor|discriminate].
    + intros H. inversion H; subst; try (intuition discriminate). apply str_eqb_refl.
  - split.
    + destruct b; try discriminate. cbn. destruct (str_eqb_spec s printed); [subst; constructor|discriminate].
    + intros H. inversion H; subst; try (intuition discriminate). apply str_eqb_refl.
  - split.
    + destruct b; try discriminate. constructor.
    + intros H. inversion H; subst; try (intuition discriminate); reflexivity.
  - apply (py_eq_listlike _ l); auto.
  - apply (py_eq_listlike _ l); auto.
  - split.
    + destruct b as [| | | | |e]; try discriminate. cbn [py_eq]. rewrite andb_true_iff, forallb_forall.
      intros [Hlen Hall]. apply Nat.eqb_eq in Hlen. constructor; [exact Hlen|].
      intros k v Hi. specialize (Hall (k, v) Hi). cbn in Hall.
      destruct (dget str_eqb k e) as [w|]; [|discriminate]. exists w. split; [reflexivity|].
      rewrite Forall_forall in IH. now apply (IH (k, v) Hi).
    + intros H. inversion H as [s|s| |x y l' m Hx Hy HF|d' e He Hd]; subst; try (intuition discriminate).
      cbn [py_eq]. rewrite andb_true_iff, forallb_forall. split; [now apply Nat.eqb_eq|].
      intros [k v] Hi. destruct (Hd k v Hi) as (w & E & Hw). rewrite E.
      rewrite Forall_forall in IH. now apply (IH (k, v) Hi).
Qed.

(** zip of equally long columns. *)
Lemma heads_spec cols : (forall c, In c cols -> c <> []) ->
  exists r, heads cols = Some r /\ Forall2 (fun c x => nth_error c 0 = Some x) cols r.
Proof.
  induction cols as [|c cols IH]; intros H; cbn [heads].
  - exists []. split; [reflexivity|constructor].
  - destruct c as [|x c]; [exfalso; apply (H []); [now left|reflexivity]|].
    destruct IH as (r & E & Hr); [intros d Hd; apply H; now right|].
    rewrite E. exists (x :: r). split; [reflexivity|]. constructor; [reflexivity|exact Hr].
Qed.
Lemma zip_rows_spec n : forall cols, (forall c, In c cols -> length c = n) ->
  length (zip_rows n cols) = n /\
  forall i r, nth_error (zip_rows n cols) i = Some r -> Forall2 (fun c x => nth_error c i = Some x) cols r.
Proof.
  induction n as [|n IH]; intros cols H; cbn [zip_rows].
  - split; [reflexivity|]. intros [|i] r E; discriminate.
  - destruct (heads_spec cols) as (r0 & E & Hr).
    { intros c Hc ->. specialize (H [] Hc). discriminate. }
    rewrite E. destruct (IH (map (fun c => skipn 1 c) cols)) as [Hl Hn].
    { intros c Hc. apply in_map_iff in Hc. destruct Hc as (d & <- & Hd). specialize (H d Hd).
      rewrite skipn_length. lia. }
    split; [cbn [length]; now rewrite Hl|].
    intros [|i] r Ei; cbn [nth_error] in Ei.
    + injection Ei as <-. exact Hr.
    + specialize (Hn i r Ei). clear -Hn. revert r Hn. induction cols as [|c cols IH]; intros r Hn; cbn [map] in Hn.
      * inversion Hn. constructor.
      * inversion Hn as [|? x ? r' H1 H2]; subst. constructor; [|apply IH; exact H2].
        destruct c; [destruct i; discriminate|exact H1].
Qed.

Lemma table_names b names rows : WF b -> is_table b names rows -> map lower names = names /\ NoDup names.
Proof.
  intros Hwf [Hne Ht]. assert (exists k, In (k, names) (b_loops b)) as [k Hk].
  { destruct names as [|n names]; [contradiction|]. destruct (Ht n (or_introl eq_refl)) as [H _].
    apply get_loop_names_In in H; [|exact Hwf]. destruct H as (k & H & _). eauto. }
  split.
  - rewrite <- (map_id names) at 2. apply map_ext_in. intros n Hn.
    apply (wf_low b Hwf). apply (printed_In_keys b n Hwf). unfold printed_names. apply in_or_app. right.
    apply in_concat. exists names. split; [|exact Hn]. apply in_map_iff. now exists (k, names).
  - apply (loops_in_nodup b (k, names) Hwf Hk).
Qed.

Lemma table_values b names rows : is_table b names rows ->
  exists cols, get_items names b = Ret (map VList cols) /\ py_iters (map VList cols) = Ret cols /\
    Forall2 (fun n c => get_item n b = Ret (VList c)) names cols /\ (forall c, In c cols -> length c = rows).
Proof.
  intros [_ Ht]. assert (forall n, In n names -> exists l, get_item n b = Ret (VList l) /\ length l = rows) as H
    by (intros n Hn; now apply Ht). clear Ht.
  induction names as [|n names IH].
  - exists []. cbn. repeat split; [constructor|intros c []].
  - destruct IH as (cols & E1 & E2 & HF & Hl); [intros m Hm; apply H; now right|].
    destruct (H n (or_introl eq_refl)) as (l & El & Hlen).
    exists (l :: cols). cbn [get_items map py_iters py_iter]. rewrite El, E1. cbn [obind].
    rewrite E2. repeat split; auto.
    intros c [<-|Hc]; auto.
Qed.

Lemma combine_map_fst {A B} (l : list A) : forall (r : list B), length l = length r -> map fst (combine l r) = l.
Proof. induction l as [|x l IH]; intros [|y r] H; cbn in *; try lia; [reflexivity|]. f_equal. apply IH. lia. Qed.

Lemma packets_spec b key names rows : WF b -> get_loop_names key b = Ret names -> is_table b names rows ->
  exists ps, loop_packets key b = Ret ps /\ length ps = rows /\
    forall i p, nth_error ps i = Some p -> is_row b names i p.
Proof.
  intros Hwf Hk Ht. destruct (table_names b names rows Hwf Ht) as [Hlow Hnd].
  destruct (table_values b names rows Ht) as (cols & E1 & E2 & HF & Hlen).
  unfold loop_packets, loop_names. rewrite Hk. cbn [obind]. rewrite E1. cbn [obind]. rewrite E2. cbn [obind].
  rewrite Hlow. eexists. split; [reflexivity|].
  assert (py_zip cols = zip_rows rows cols) as ->.
  { destruct Ht as [Hne _]. destruct cols as [|c cols]; [inversion HF; subst; contradiction|].
    cbn [py_zip]. now rewrite (Hlen c (or_introl eq_refl)). }
  destruct (zip_rows_spec rows cols Hlen) as [Hl Hn]. split; [now rewrite map_length|].
  intros i p E. rewrite nth_error_map in E. destruct (nth_error (zip_rows rows cols) i) as [r|] eqn:Er; [|discriminate].
  cbn in E. injection E as <-. specialize (Hn i r Er). split.
  - apply combine_map_fst. apply Forall2_len in HF. apply Forall2_len in Hn. lia.
  - clear Er Hl Hlen E1 E2. revert cols r HF Hn.
    clear Hlow Hnd Hk Ht. induction names as [|n names IH]; intros cols r HF Hn m v Hi; [contradiction|].
    inversion HF as [|? c ? cols' Hc HF']; subst. inversion Hn as [|? x ? r' Hx Hn']; subst.
    cbn in Hi. destruct Hi as [Hi|Hi].
    + injection Hi as <- <-. exists c. split; [exact Hc|exact Hx].
    + eapply IH; eauto.
Qed.

Lemma is_row_unique b names i p q : is_row b names i p -> is_row b names i q -> p = q.
Proof.
  intros [Hp Cp] [Hq Cq]. rewrite <- Hq in Hp. clear Hq.
  revert q Hp Cq. induction p as [|[n v] p IH]; intros [|[m w] q] Hpq Cq; cbn in Hpq; try discriminate; [reflexivity|].
  injection Hpq as -> Hpq.
  destruct (Cp m v (or_introl eq_refl)) as (l & E & Hv). destruct (Cq m w (or_introl eq_refl)) as (l' & E' & Hw).
  assert (v = w) as -> by congruence. f_equal. apply IH; auto.
  - intros n v' Hi. apply Cp. now right.
  - intros n v' Hi. apply Cq. now right.
Qed.

Lemma row_attr b names i p key rows : WF b -> is_table b names rows -> is_row b names i p -> In (lower key) names ->
  exists v, p_attr key p = Ret v /\ cell b (lower key) i v.
Proof.
  intros Hwf Ht [Hp Hc] Hk. unfold p_attr.
  destruct (dget str_eqb (lower key) p) as [v|] eqn:E.
  - exists v. split; [reflexivity|]. apply Hc. now apply (dget_In _ str_eqb_spec) in E.
  - exfalso. rewrite <- Hp in Hk. apply in_map_iff in Hk. destruct Hk as ([n v] & Hn & Hi). cbn in Hn. subst n.
    revert E. clear -Hi. induction p as [|[m w] p IH]; [contradiction|]. cbn [dget].
    destruct (str_eqb_spec (lower key) m); [discriminate|].
    destruct Hi as [Hi|Hi]; [congruence|auto].
Qed.
