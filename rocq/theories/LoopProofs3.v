(** Proofs about adding and removing rows. *)
From Coq Require Import String Ascii List NArith ZArith Bool Lia Permutation ZifyBool ZifyNat ZifyN.
From Verif Require Import PyBase PyFacts StarBlockModel StarBlockSpec StarBlockProofs StarBlockProofs2
  StarBlockProofs3 StarBlockProofs4 StarBlockProofs5 LoopModel LoopSpec LoopProofs LoopProofs2.
Import ListNotations.

(** A non-empty column is acceptable if each of its entries is. *)
Lemma acceptable_cells un l : l <> [] -> (forall x, In x l -> acceptable_value un (VList [x])) ->
  acceptable_value un (VList l).
Proof.
  intros Hne H. split.
  - rewrite regularise_VList. destruct l as [|a l']; [contradiction|]. clear Hne. set (l := a :: l') in *. clearbody l.
    assert (exists es, reg_list l = Ret (l, es)) as [es Hes].
    { induction l as [|x l IH]; [exists []; reflexivity|].
      destruct (H x (or_introl eq_refl)) as [[e He] _]. rewrite regularise_VList in He. cbn [reg_list] in He.
      destruct (regularise x) as [[x' e']|] eqn:Ex; [|discriminate].
      destruct (regularise_id _ _ _ Ex) as [-> _].
      destruct IH as [es Hes]; [intros y Hy; apply H; now right|].
      exists (e' :: es). cbn [reg_list]. rewrite Ex, Hes. reflexivity. }
    rewrite Hes. eauto.
  - unfold check_item_value. assert (forallb (check_one un) l = true) as ->; [|reflexivity].
    apply forallb_forall. intros x Hx. destruct (H x Hx) as [_ Hc]. unfold check_item_value in Hc. cbn [forallb] in Hc.
    rewrite andb_true_r in Hc. destruct (check_one un x); [reflexivity|discriminate].
Qed.

Lemma dset_keys_mem (k : str) (v : value * value) d : dmem str_eqb k d = true -> dkeys (dset str_eqb k v d) = dkeys d.
Proof. intros H. rewrite (dkeys_dset _ str_eqb_spec). now rewrite H. Qed.

Lemma append_keys n x b : b_keys (append_stored n x b) = b_keys b.
Proof.
  unfold append_stored. destruct (dget str_eqb (lower n) (b_data b)) as [[s v]|] eqn:E; [|reflexivity].
  destruct s; try reflexivity. unfold b_keys. cbn [b_data].
  apply dset_keys_mem. unfold dmem. now rewrite E.
Qed.
Lemma append_same n x b : b_loops (append_stored n x b) = b_loops b /\ b_order (append_stored n x b) = b_order b
  /\ b_over (append_stored n x b) = b_over b /\ b_max (append_stored n x b) = b_max b /\ b_uni (append_stored n x b) = b_uni b
  /\ b_true (append_stored n x b) = b_true b.
Proof.
  unfold append_stored. destruct (dget str_eqb (lower n) (b_data b)) as [[s v]|]; [|repeat split].
  destruct s; repeat split.
Qed.
Lemma append_frame n x b k : k <> lower n -> dget str_eqb k (b_data (append_stored n x b)) = dget str_eqb k (b_data b).
Proof.
  intros Hk. unfold append_stored. destruct (dget str_eqb (lower n) (b_data b)) as [[s v]|]; [|reflexivity].
  destruct s; try reflexivity. cbn [b_data]. now apply (dget_dset_neq _ str_eqb_spec).
Qed.

Lemma add_packet_go_spec p : forall names b, NoDup names -> map lower names = names -> b_over b = true ->
  (forall n, In n names -> check_data_name (b_max b) (b_uni b) n = Ret tt) ->
  (forall n, In n names -> exists l x, get_item n b = Ret (VList l) /\ p_attr n p = Ret x /\
      forall y, In y (l ++ [x]) -> acceptable_value (b_uni b) (VList [y])) ->
  exists b', add_packet_go names p b = (b', Ret tt) /\
    (forall n l x, In n names -> get_item n b = Ret (VList l) -> p_attr n p = Ret x -> get_item n b' = Ret (VList (l ++ [x]))) /\
    (forall m, ~ In (lower m) names -> get_item m b' = get_item m b) /\ same_layout b b'.
Proof.
  induction names as [|n names IH]; intros b Hnd Hlow Hov Hck Hcols.
  - exists b. cbn. repeat split; auto; contradiction.
  - cbn [add_packet_go]. inversion Hnd as [|? ? Hn Hnd']; subst. cbn [map] in Hlow. injection Hlow as Hln Hlow.
    destruct (Hcols n (or_introl eq_refl)) as (l & x & El & Ex & Hok). rewrite El, Ex.
    destruct (append_same n x b) as (A1 & A2 & A3 & A4 & A5 & A6).
    assert (has_key n (append_stored n x b) = true) as Hhas.
    { apply has_key_In. rewrite append_keys. apply has_key_In. now apply get_item_key in El. }
    destruct (set_item_succeeds n (VList (l ++ [x])) (append_stored n x b)) as [b1 Hb1].
    + rewrite A4, A5. apply Hck. now left.
    + rewrite A5. apply acceptable_cells; [intros H; destruct l; discriminate|exact Hok].
    + intros _. now rewrite A3.
    + rewrite Hb1.
      destruct (set_item_existing n _ _ _ Hhas Hb1) as (B1 & B2 & B3).
      assert (b_max b1 = b_max b /\ b_uni b1 = b_uni b) as [B4 B5].
      { apply set_item_ok in Hb1. pose proof (add_item_settings n (VList (l ++ [x])) false (append_stored n x b)) as S.
        rewrite Hb1 in S. cbn [fst] in S. now rewrite A4, A5 in S. }
      assert (b_keys b1 = b_keys b) as B6.
      { rewrite <- (append_keys n x b). apply set_item_ok in Hb1. apply add_item_ok in Hb1 as (e & _ & _ & _ & _ & ->).
        unfold b_keys, store_item. cbn [b_data]. apply dset_keys_mem. exact Hhas. }
      assert (forall m, lower m <> n -> get_item m b1 = get_item m b) as Hfr.
      { intros m Hm. apply get_item_data. pose proof (set_item_frame n (VList (l ++ [x])) (append_stored n x b) (lower m)) as F.
        rewrite Hb1 in F. cbn [fst] in F. rewrite F by congruence. apply append_frame. congruence. }
      destruct (IH b1) as (b' & E & R & F & L).
      * exact Hnd'.
      * exact Hlow.
      * congruence.
      * intros m Hm. rewrite B4, B5. apply Hck. now right.
      * intros m Hm. destruct (Hcols m (or_intror Hm)) as (l' & x' & El' & Ex' & Hok').
        exists l', x'. rewrite B5. split; [|now split]. rewrite <- El'. apply Hfr.
        intros Heq. apply Hn. rewrite <- Heq.
        assert (lower m = m) as ->; [|exact Hm]. clear -Hlow Hm. revert Hlow Hm. induction names as [|a r IH]; [contradiction|].
        cbn [map]. intros H [->|Hm]; injection H; auto.
      * exists b'. split; [exact E|]. split; [|split].
        -- intros m l' x' [<-|Hm] El' Ex'.
           ++ rewrite F by now rewrite Hln. assert (l' = l) as -> by congruence. assert (x' = x) as -> by congruence.
              eapply set_item_read; [exact Hb1|reflexivity].
           ++ apply R; auto. rewrite Hfr; auto. intros Heq. apply Hn. rewrite <- Heq.
              assert (lower m = m) as ->; [|exact Hm]. clear -Hlow Hm. revert Hlow Hm. induction names as [|a r IH]; [contradiction|].
              cbn [map]. intros H [->|Hm]; injection H; auto.
        -- intros m Hm. rewrite F by (intros H; apply Hm; now right). apply Hfr. intros H. apply Hm. now left.
        -- destruct L as (L1 & L2 & L3 & L4 & L5 & L6). unfold same_layout. repeat split; congruence.
Qed.

Lemma same_layout_names a b k : same_layout a b -> get_loop_names k a = get_loop_names k b.
Proof. intros (H & _). unfold get_loop_names, find_loop. now rewrite H. Qed.

Lemma add_packet_spec b key names rows p : WF b -> get_loop_names key b = Ret names -> is_table b names rows ->
  b_over b = true ->
  (forall n, In n names -> check_data_name (b_max b) (b_uni b) n = Ret tt) ->
  (forall n i v, In n names -> cell b n i v -> acceptable_value (b_uni b) (VList [v])) ->
  (forall n, In n names -> exists x, p_attr n p = Ret x /\ acceptable_value (b_uni b) (VList [x])) ->
  exists b', add_packet key p b = (b', Ret tt) /\
    is_table b' names (S rows) /\
    (forall n i v, In n names -> cell b n i v -> cell b' n i v) /\
    (forall n v, In n names -> (cell b' n rows v <-> p_attr n p = Ret v)) /\
    (forall m, ~ In (lower m) names -> get_item m b' = get_item m b) /\ same_layout b b'.
Proof.
  intros Hwf Hk Ht Hov Hck Hcells Hp. destruct (table_names b names rows Hwf Ht) as [Hlow Hnd].
  destruct (add_packet_go_spec p names b Hnd Hlow Hov Hck) as (b' & E & R & F & L).
  { intros n Hn. destruct Ht as [_ Ht]. destruct (Ht n Hn) as [_ (l & El & _)]. destruct (Hp n Hn) as (x & Ex & Hx).
    exists l, x. split; [exact El|]. split; [exact Ex|]. intros y Hy. apply in_app_or in Hy. destruct Hy as [Hy|[<-|[]]]; [|exact Hx].
    apply In_nth_error in Hy. destruct Hy as [i Hi]. apply (Hcells n i y Hn). exists l. now split. }
  exists b'. unfold add_packet, loop_names. rewrite Hk. split; [exact E|].
  assert (forall n, In n names -> exists l x, get_item n b = Ret (VList l) /\ length l = rows /\ p_attr n p = Ret x /\ get_item n b' = Ret (VList (l ++ [x]))) as C.
  { intros n Hn. destruct Ht as [_ Ht]. destruct (Ht n Hn) as [_ (l & El & Hl)]. destruct (Hp n Hn) as (x & Ex & _).
    exists l, x. repeat split; auto. }
  split; [|split; [|split; [|split]]].
  - split; [apply Ht|]. intros n Hn. split.
    + rewrite <- (same_layout_names _ _ n L). now apply Ht.
    + destruct (C n Hn) as (l & x & _ & Hl & _ & H). exists (l ++ [x]). split; [exact H|]. rewrite app_length. cbn. lia.
  - intros n i v Hn (l0 & E0 & H0). destruct (C n Hn) as (l & x & E1 & Hl & _ & H). assert (l0 = l) as -> by congruence.
    exists (l ++ [x]). split; [exact H|]. rewrite nth_error_app1; [exact H0|]. apply nth_error_Some. congruence.
  - intros n v Hn. destruct (C n Hn) as (l & x & E1 & Hl & Ex & H). split.
    + intros (l0 & E0 & H0). assert (l0 = l ++ [x]) as -> by congruence.
      rewrite nth_error_app2 in H0 by lia. rewrite Hl, PeanoNat.Nat.sub_diag in H0. cbn in H0. congruence.
    + intros Hv. exists (l ++ [x]). split; [exact H|]. rewrite nth_error_app2 by lia. rewrite Hl, PeanoNat.Nat.sub_diag. cbn. congruence.
  - exact F.
  - exact L.
Qed.

(* ---------------------------------------------------------------- removal *)
Lemma del_at_spec {A} i (l : list A) : (i < length l)%nat -> entry_deleted i l (del_at i l).
Proof.
  intros H. unfold entry_deleted, del_at. destruct (nth_error l i) as [x|] eqn:E.
  - exists (firstn i l), x, (skipn (S i) l). split; [|split; [apply firstn_length_le; lia|reflexivity]].
    rewrite <- (firstn_skipn i l) at 1. f_equal.
    clear -E. revert i E. induction l as [|a l IH]; intros [|i] E; try discriminate; cbn in *; [congruence|].
    now apply IH.
  - apply nth_error_None in E. lia.
Qed.
Lemma entry_deleted_fun {A} i (l l1 l2 : list A) : entry_deleted i l l1 -> entry_deleted i l l2 -> l1 = l2.
Proof.
  intros (a & x & c & E & Ha & ->) (a' & x' & c' & E' & Ha' & ->). subst l.
  revert i Ha a' Ha' E'. induction a as [|y a IH]; intros i Ha [|y' a'] Ha' E'; cbn in *; subst; try discriminate.
  - congruence.
  - injection E' as -> E'. f_equal. eapply IH; eauto.
Qed.
Lemma del_at_len {A} i (l : list A) : (i < length l)%nat -> length (del_at i l) = pred (length l).
Proof. intros H. unfold del_at. rewrite app_length, firstn_length_le, skipn_length by lia. lia. Qed.
Lemma del_at_Forall {A} (P : A -> Prop) i l : Forall P l -> Forall P (del_at i l).
Proof.
  intros H. unfold del_at. rewrite Forall_forall in *. intros x Hx. apply H. apply in_app_or in Hx.
  destruct Hx as [Hx|Hx].
  - rewrite <- (firstn_skipn i l). apply in_or_app. now left.
  - rewrite <- (firstn_skipn (S i) l). apply in_or_app. now right.
Qed.

Lemma entry_val_list s v l : length s = length v ->
  (Forall (fun x => not_none x = true) s \/ Forall (fun x => not_none x = false) s) ->
  entry_val (VList s, VList v) = Ret (VList l) ->
  (l = s /\ Forall (fun x => not_none x = true) s) \/ (l = v /\ Forall (fun x => not_none x = false) s).
Proof.
  intros Hl Hn. unfold entry_val. cbn [fst snd]. destruct (not_none (VList s)) eqn:E.
  - intros H. injection H as <-. left. split; [reflexivity|].
    change (forallb not_none s = true) in E. rewrite forallb_forall in E. now apply Forall_forall.
  - intros H. injection H as <-. right. split; [reflexivity|]. destruct Hn as [Hn|Hn]; [|exact Hn].
    exfalso. change (forallb not_none s = false) in E. rewrite Forall_forall in Hn. rewrite <- forallb_forall in Hn. congruence.
Qed.
Lemma entry_val_pos s v : Forall (fun x => not_none x = true) s -> entry_val (VList s, VList v) = Ret (VList s).
Proof.
  intros H. unfold entry_val. cbn [fst snd]. assert (not_none (VList s) = true) as ->; [|reflexivity].
  change (forallb not_none s = true). apply forallb_forall. now apply Forall_forall.
Qed.
Lemma entry_val_neg s v : Forall (fun x => not_none x = false) s -> length s = length v -> entry_val (VList s, VList v) = Ret (VList v).
Proof.
  intros H Hl. destruct s as [|x s].
  - destruct v; [reflexivity|discriminate].
  - unfold entry_val. cbn [fst snd]. assert (not_none (VList (x :: s)) = false) as ->; [|reflexivity].
    change (forallb not_none (x :: s) = false). cbn [forallb]. inversion H; subst. now rewrite H2.
Qed.

Lemma remove_row_spec b n i l : lower n = n -> consistent b -> get_item n b = Ret (VList l) -> (i < length l)%nat ->
  exists b', remove_row n i b = (b', Ret tt) /\ get_item n b' = Ret (VList (del_at i l)) /\
    (forall m, lower m <> n -> get_item m b' = get_item m b) /\ same_layout b b' /\ b_true b' = b_true b /\ consistent b'.
Proof.
  intros Hln Hc El Hi. rewrite get_full_entry in El. destruct (str_eqb_spec n (u "saves")) as [|Hns]; [discriminate|].
  rewrite Hln in El. destruct (dget str_eqb n (b_data b)) as [e|] eqn:Ed; [|discriminate].
  assert (exists s v, e = (VList s, VList v) /\ length s = length v /\
     (Forall (fun x => not_none x = true) s \/ Forall (fun x => not_none x = false) s)) as (s & v & -> & Hl & Hn).
  { destruct (Hc n e Ed) as [H|[H1 H2]]; [exact H|]. exfalso. destruct e as [s v]. cbn [fst snd] in *.
    unfold entry_val in El. cbn [fst snd] in El. destruct s; try discriminate; cbn in El; try discriminate;
      destruct v; try discriminate;
      repeat match type of El with context [if ?c then _ else _] => destruct c end; discriminate. }
  assert (length l = length s) as Hls.
  { destruct (entry_val_list s v l Hl Hn El) as [[-> _]|[-> _]]; congruence. }
  unfold remove_row. rewrite Ed. cbn [py_iter].
  destruct (Nat.leb_spec (length s) i) as [|H1]; [lia|]. destruct (Nat.leb_spec (length v) i) as [|H2]; [lia|].
  eexists. split; [reflexivity|]. split; [|split; [|split; [|split]]].
  - rewrite get_full_entry. destruct (str_eqb_spec n (u "saves")) as [|_]; [contradiction|].
    unfold set_entry. cbn [b_data]. rewrite Hln, (dget_dset_eq _ str_eqb_spec).
    destruct (entry_val_list s v l Hl Hn El) as [[-> Hp]|[-> Hp]].
    + apply entry_val_pos. now apply del_at_Forall.
    + apply entry_val_neg; [now apply del_at_Forall|]. rewrite !del_at_len; lia.
  - intros m Hm. apply get_item_data. unfold set_entry. cbn [b_data]. now apply (dget_dset_neq _ str_eqb_spec).
  - unfold same_layout, set_entry, b_keys. cbn [b_data b_loops b_order b_over b_max b_uni]. repeat split.
    symmetry. apply dset_keys_mem. unfold dmem. now rewrite Ed.
  - reflexivity.
  - intros k e. unfold set_entry. cbn [b_data]. destruct (str_eqb_spec k n) as [->|Hk].
    + rewrite (dget_dset_eq _ str_eqb_spec). intros H. injection H as <-. left. exists (del_at i s), (del_at i v).
      split; [reflexivity|]. split; [rewrite !del_at_len; lia|].
      destruct Hn; [left|right]; now apply del_at_Forall.
    + rewrite (dget_dset_neq _ str_eqb_spec) by exact Hk. apply Hc.
Qed.

Lemma remove_rows_spec i : forall names b, NoDup names -> map lower names = names -> consistent b ->
  (forall n, In n names -> exists l, get_item n b = Ret (VList l) /\ (i < length l)%nat) ->
  exists b', remove_rows names i b = (b', Ret tt) /\
    (forall n l, In n names -> get_item n b = Ret (VList l) -> get_item n b' = Ret (VList (del_at i l))) /\
    (forall m, ~ In (lower m) names -> get_item m b' = get_item m b) /\ same_layout b b' /\ b_true b' = b_true b /\ consistent b'.
Proof.
  induction names as [|n names IH]; intros b Hnd Hlow Hc Hcols.
  - exists b. cbn. unfold same_layout. repeat split; auto; contradiction.
  - inversion Hnd as [|? ? Hn Hnd']; subst. cbn [map] in Hlow. injection Hlow as Hln Hlow.
    assert (forall m, In m names -> lower m <> n) as Hm.
    { intros m Hm Heq. apply Hn. rewrite <- Heq.
      assert (lower m = m) as ->; [|exact Hm]. clear -Hlow Hm. revert Hlow Hm. induction names as [|a r IH]; [contradiction|].
      cbn [map]. intros H [->|Hm]; injection H; auto. }
    destruct (Hcols n (or_introl eq_refl)) as (l & El & Hi).
    destruct (remove_row_spec b n i l Hln Hc El Hi) as (b1 & E1 & R1 & F1 & L1 & T1 & C1).
    destruct (IH b1 Hnd' Hlow C1) as (b' & E & R & F & L & T & C).
    { intros m Hi'. destruct (Hcols m (or_intror Hi')) as (l' & El' & Hi''). exists l'. split; [|exact Hi''].
      rewrite F1; auto. }
    exists b'. cbn [remove_rows]. rewrite E1. split; [exact E|]. split; [|split; [|split; [|split]]].
    + intros m l' [<-|Hi'] El'.
      * rewrite F by now rewrite Hln. congruence.
      * apply R; auto. rewrite F1; auto.
    + intros m Hmm. rewrite F by (intros H; apply Hmm; now right). apply F1. intros H. apply Hmm. now left.
    + destruct L as (X1 & X2 & X3 & X4 & X5 & X6). destruct L1 as (Y1 & Y2 & Y3 & Y4 & Y5 & Y6).
      unfold same_layout. repeat split; congruence.
    + congruence.
    + exact C.
Qed.

Lemma py_index_first kv l : 
  match py_index_of kv l with
  | Some i => exists v, nth_error l i = Some v /\ same_value v kv /\
                forall j w, (j < i)%nat -> nth_error l j = Some w -> ~ same_value w kv
  | None => forall v, In v l -> ~ same_value v kv
  end.
Proof.
  unfold py_index_of. induction l as [|x l IH]; cbn [index_of]; [contradiction|].
  destruct (py_eq x kv) eqn:E.
  - exists x. split; [reflexivity|]. split; [now apply py_eq_spec|]. lia.
  - assert (~ same_value x kv) as Hx by (intros H; apply py_eq_spec in H; congruence).
    destruct (index_of (fun a b => py_eq b a) kv l) as [i|] eqn:Ei; cbn [option_map].
    + destruct IH as (v & Hv & Hs & Hf). exists v. split; [exact Hv|]. split; [exact Hs|].
      intros [|j] w Hj Hw; cbn in Hw; [injection Hw as <-; exact Hx|]. eapply Hf; eauto. lia.
    + intros v [<-|Hv]; auto.
Qed.

Lemma remove_keyed_spec b key names rows kv : WF b -> consistent b -> get_loop_names key b = Ret names -> is_table b names rows ->
  let Q := row_matches b key (fun v => same_value v kv) in
  (forall i, Q i -> (forall j, (j < i)%nat -> ~ Q j) ->
     exists b', remove_keyed_packet key kv b = (b', Ret tt) /\
       (forall n l, In n names -> get_item n b = Ret (VList l) ->
          exists l', get_item n b' = Ret (VList l') /\ entry_deleted i l l') /\
       (forall m, ~ In (lower m) names -> get_item m b' = get_item m b) /\
       same_layout b b' /\ b_true b' = b_true b /\ consistent b') /\
  ((forall i, ~ Q i) -> remove_keyed_packet key kv b = (b, Raise ValueErr)).
Proof.
  intros Hwf Hc Hk Ht Q. destruct (table_names b names rows Hwf Ht) as [Hlow Hnd].
  pose proof (table_key _ _ _ _ Ht Hk Hwf) as Hin.
  assert (exists l, get_item key b = Ret (VList l) /\ length l = rows) as (l & El & Hl).
  { destruct Ht as [_ Ht]. destruct (Ht _ Hin) as [_ (l & E & Hl)]. exists l. split; [|exact Hl]. rewrite <- E.
    rewrite get_full_entry in E. destruct (str_eqb_spec (lower key) (u "saves")) as [|Hn]; [discriminate|].
    apply get_item_ext; [now rewrite lower_idem| |exact Hn]. intros ->. apply Hn. reflexivity. }
  assert (forall i, Q i <-> exists v, nth_error l i = Some v /\ same_value v kv) as HQ.
  { intros i. split.
    - intros (v & (l' & E' & Hv) & Hs). assert (l' = l) as -> by congruence. eauto.
    - intros (v & Hv & Hs). exists v. split; [|exact Hs]. exists l. now split. }
  unfold remove_keyed_packet. rewrite El. cbn [obind py_iter]. pose proof (py_index_first kv l) as Hix.
  split.
  - intros i Hi Hfirst. destruct (py_index_of kv l) as [i'|].
    2:{ exfalso. apply HQ in Hi. destruct Hi as (v & Hv & Hs). apply nth_error_In in Hv. now apply (Hix v). }
    destruct Hix as (v & Hv & Hs & Hf).
    assert (i' = i) as ->.
    { destruct (PeanoNat.Nat.lt_trichotomy i' i) as [H|[H|H]]; [|exact H|].
      - exfalso. apply (Hfirst i' H). apply HQ. eauto.
      - exfalso. apply HQ in Hi. destruct Hi as (w & Hw & Hws). now apply (Hf i w H Hw). }
    rewrite Hk. assert (i < rows)%nat as Hb by (rewrite <- Hl; apply nth_error_Some; congruence).
    destruct (remove_rows_spec i names b Hnd Hlow Hc) as (b' & E & R & F & L & T & C).
    { intros n Hn. destruct Ht as [_ Ht]. destruct (Ht n Hn) as [_ (l' & E' & Hl')]. exists l'. split; [exact E'|]. lia. }
    exists b'. split; [exact E|]. split; [|auto].
    intros n l' Hn El'. exists (del_at i l'). split; [now apply R|]. apply del_at_spec.
    destruct Ht as [_ Ht]. destruct (Ht n Hn) as [_ (l2 & E2 & Hl2)]. assert (l2 = l') as -> by congruence. lia.
  - intros Hno. destruct (py_index_of kv l) as [i'|]; [|reflexivity].
    exfalso. destruct Hix as (v & Hv & Hs & _). apply (Hno i'). apply HQ. eauto.
Qed.

(* ------------------------------------------------- consistency of histories *)
Lemma store_consistent k s v b : entry_ok (s, v) -> consistent b -> consistent (store_item k s v b).
Proof.
  intros He Hc k' e. rewrite store_dget. destruct (str_eqb k' (lower k)); [|apply Hc]. intros H. now injection H as <-.
Qed.

Lemma reg_list_len l : forall vs es, reg_list l = Ret (vs, es) -> length es = length l /\ Forall (fun x => not_none x = false) es.
Proof.
  induction l as [|x l IH]; intros vs es; cbn [reg_list].
  - intros H. injection H as <- <-. now split.
  - destruct (regularise x) as [[x' e]|] eqn:Ex; [|discriminate]. destruct (reg_list l) as [[vs' es']|] eqn:El; [|discriminate].
    intros H. injection H as <- <-. destruct (IH _ _ eq_refl) as [H1 H2]. split; [cbn; congruence|].
    constructor; [|exact H2]. now apply regularise_id in Ex.
Qed.
Lemma regularise_entry v e : regularise v = Ret (v, e) -> entry_ok (if check_stringiness v then (v, e) else (e, v)).
Proof.
  intros H. destruct (regularise_shape _ _ _ H) as [[-> Hs]|(l & es & -> & -> & Hne)].
  - right. assert (is_plain_list v = false) as Hv by (destruct v; try reflexivity; exfalso; eapply Hs; reflexivity).
    destruct (check_stringiness v); cbn [fst snd]; now split.
  - left. rewrite regularise_VList in H. destruct l as [|a l']; [contradiction|]. set (l := a :: l') in *. clearbody l.
    destruct (reg_list l) as [[vs es']|] eqn:Er; [|discriminate]. injection H as -> ->.
    destruct (reg_list_len _ _ _ Er) as [Hlen Hf].
    destruct (check_stringiness (VList l)) eqn:Es.
    + exists l, es. split; [reflexivity|]. split; [congruence|]. left. apply stringy_not_none in Es.
      change (forallb not_none l = true) in Es. apply Forall_forall. now apply forallb_forall.
    + exists es, l. split; [reflexivity|]. split; [congruence|]. now right.
Qed.
Lemma add_item_consistent k v b : consistent b -> consistent (fst (add_item k v false b)).
Proof.
  intros Hc. destruct (add_item k v false b) as [b' [[]|e]] eqn:E; cbn [fst].
  - apply add_item_ok in E as (e & _ & R & _ & _ & ->). pose proof (regularise_entry _ _ R) as He.
    destruct (check_stringiness v); now apply store_consistent.
  - apply add_item_err in E. now subst.
Qed.
Lemma set_item_consistent k v b : consistent b -> consistent (fst (set_item k v b)).
Proof. intros H. unfold set_item. destruct (str_eqb _ _); [exact H|now apply add_item_consistent]. Qed.
Lemma consistent_data b b' : b_data b' = b_data b -> consistent b -> consistent b'.
Proof. intros E H. unfold consistent. now rewrite E. Qed.
Lemma update_consistent kvs : forall b, consistent b -> consistent (fst (update_items kvs b)).
Proof.
  induction kvs as [|[k v] r IH]; intros b H; cbn [update_items]; [exact H|].
  pose proof (add_item_consistent k v b H) as H1. destruct (add_item k v false b) as [b' [|]]; cbn [fst] in *; auto.
Qed.
Lemma listify_consistent names : forall b, consistent b -> consistent (fst (listify_items names b)).
Proof.
  induction names as [|n r IH]; intros b H; cbn [listify_items]; [exact H|]. destruct (get_item n b) as [v|]; [|exact H].
  pose proof (set_item_consistent n (VList [v]) b H) as H1. destruct (set_item n (VList [v]) b) as [b' [|]]; cbn [fst] in *; auto.
Qed.
Lemma create_consistent names order b : consistent b -> consistent (fst (create_loop names order true b)).
Proof.
  intros H. eapply consistent_data; [apply create_loop_data|]. unfold loop_length_check.
  destruct (get_items names b); [|exact H]. destruct (Nat.eqb _ _); [destruct (all_same_len _); exact H|].
  destruct (negb _); [exact H|]. now apply listify_consistent.
Qed.
Lemma add_names_data d ns : forall b, b_data (fst (add_loop_names d ns b)) = b_data b.
Proof.
  induction ns as [|n r IH]; intros b; cbn [add_loop_names]; [reflexivity|].
  pose proof (add_loop_name_data d n b) as D. destruct (add_loop_name d n b) as [b' [|]]; cbn [fst] in *; [|exact D].
  now rewrite IH.
Qed.
Lemma run_op_consistent o b : WF b -> consistent b -> consistent (fst (run_op o b)).
Proof.
  intros W H. destruct o; cbn [run_op].
  - now apply set_item_consistent.
  - intros k e. rewrite remove_item_data. intros E. apply (H k).
    destruct (str_eqb_spec k (lower key)) as [->|Hk]; [|now rewrite (dget_ddel_neq _ str_eqb_spec) in E by exact Hk].
    rewrite (dget_ddel_eq _ str_eqb_spec) in E; [discriminate|apply (wf_keys b W)].
  - now apply create_consistent.
  - eapply consistent_data; [apply add_loop_name_data|exact H].
  - unfold add_to_loop. pose proof (update_consistent kvs b H) as H1. destruct (update_items kvs b) as [b' [|]]; cbn [fst] in *; [|exact H1].
    eapply consistent_data; [apply add_names_data|exact H1].
  - unfold add_loop_item. pose proof (update_consistent (combine names vals) b H) as H1.
    destruct (update_items (combine names vals) b) as [b' [|]]; cbn [fst] in *; [|exact H1]. now apply create_consistent.
  - unfold change_item_order. destruct it as [n|k].
    + destruct (find_loop n b); [exact H|]. destruct (mem _ _ _); exact H.
    + destruct (b_loops b); [|exact H]. destruct (mem _ _ _); exact H.
  - exact H.
  - unfold setmaxnamelength. destruct (_ && _); exact H.
  - exact H.
  - intros k e E. discriminate.
Qed.
Lemma run_ops_consistent os : forall b, WF b -> Forall admissible os -> consistent b -> consistent (run_ops os b).
Proof.
  induction os as [|o os IH]; intros b W A H; [exact H|]. inversion A; subst. cbn. apply IH; auto.
  - now apply run_op_wf.
  - now apply run_op_consistent.
Qed.

(* ------------------------------------------------------------- GetPacket *)
Lemma py_index_spec {A} (l : list A) i : 
  py_index i l = if ((- Z.of_nat (length l) <=? i) && (i <? Z.of_nat (length l)))%Z
                 then nth_error l (Z.to_nat (if (i <? 0)%Z then i + Z.of_nat (length l) else i)%Z) else None.
Proof.
  unfold py_index. cbv zeta. destruct (Z.ltb_spec i (- Z.of_nat (length l))), (Z.leb_spec (- Z.of_nat (length l)) i); try lia; cbn [andb]; [reflexivity|].
  destruct (Z.ltb_spec i (Z.of_nat (length l))) as [|Hge]; [reflexivity|]. apply nth_error_None.
  destruct (Z.ltb_spec i 0); lia.
Qed.
Definition row_number (i : Z) (rows : nat) : nat := Z.to_nat (if (i <? 0)%Z then i + Z.of_nat rows else i)%Z.

Lemma get_packet_spec b key names rows : WF b -> get_loop_names key b = Ret names -> is_table b names rows ->
  (forall i, (- Z.of_nat rows <= i < Z.of_nat rows)%Z ->
     exists p, get_packet key i b = Ret p /\ is_row b names (row_number i rows) p) /\
  (forall i, (i < - Z.of_nat rows \/ Z.of_nat rows <= i)%Z -> get_packet key i b = Raise IndexErr).
Proof.
  intros Hwf Hk [Hne Ht]. unfold get_packet, loop_names. rewrite Hk. cbn [obind].
  assert (forall n, In n names -> exists l, get_item n b = Ret (VList l) /\ length l = rows) as H by (intros n Hn; now apply Ht).
  clear Ht Hk. split.
  - intros i Hi. clear Hne. induction names as [|n names IH].
    + exists []. split; [reflexivity|]. split; [reflexivity|]. contradiction.
    + destruct (H n (or_introl eq_refl)) as (l & E & Hl). rewrite E. cbn [obind py_iter].
      destruct IH as (p & Ep & Hp & Hc); [intros m Hm; apply H; now right|].
      rewrite py_index_spec, Hl.
      destruct (Z.leb_spec (- Z.of_nat rows) i), (Z.ltb_spec i (Z.of_nat rows)); try lia. cbn [andb].
      fold (row_number i rows).
      assert (row_number i rows < length l)%nat as Hlt by (unfold row_number; destruct (Z.ltb_spec i 0); lia).
      apply nth_error_Some in Hlt. destruct (nth_error l (row_number i rows)) as [x|] eqn:Ex; [|contradiction].
      exists ((n, x) :: p). split; [now rewrite Ep|]. split; [cbn; congruence|].
      intros m v [Hm|Hm]; [|now apply Hc]. injection Hm as <- <-. exists l. now split.
  - intros i Hi. destruct names as [|n names]; [contradiction|]. destruct (H n (or_introl eq_refl)) as (l & E & Hl).
    rewrite E. cbn [obind py_iter]. rewrite py_index_spec, Hl.
    destruct (Z.leb_spec (- Z.of_nat rows) i), (Z.ltb_spec i (Z.of_nat rows)); try lia; reflexivity.
Qed.
