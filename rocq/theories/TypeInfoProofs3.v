(** Mending a set of characters. *)
From Coq Require Import String Ascii List NArith PeanoNat Bool Lia.
From Verif Require Import PyBase PyFacts StarBlockModel RegexModel RegexSpec TypeInfoModel TypeInfoSpec TypeInfoProofs TypeInfoProofs2.
Import ListNotations.
Open Scope nat_scope.

(** No mark in the text of items that do not have it. *)
Definition quiet (d : N) (l : list sitem) : Prop := forall l1 l2, l = l1 ++ SEsc 92%N :: l2 -> exists c l3, l2 = SChr c :: l3 /\ c <> d.
Lemma quiet_tl d i l : quiet d (i :: l) -> quiet d l.
Proof. intros Q l1 l2 ->. apply (Q (i :: l1) l2). reflexivity. Qed.
Lemma quiet_app d l1 l2 : quiet d (l1 ++ l2) -> quiet d l2.
Proof. intros Q m1 m2 ->. apply (Q (l1 ++ m1) m2). now rewrite <- app_assoc. Qed.
Lemma no_mark d tl : d <> 92%N -> ~ In 92%N tl -> forall l, Forall good_first l -> ~ In (SEsc d) l -> quiet d l -> forall a b, flat_map sitem_text l ++ tl <> a ++ [92%N; d] ++ b.
Proof.
  intros Nd Nt. induction l as [|i l IH]; intros G Nl Q a b E.
  - cbn in E. apply Nt. rewrite E, in_app_iff. right. now left.
  - inversion G as [|? ? Gi Gl]; subst. assert (forall a' b', flat_map sitem_text l ++ tl <> a' ++ [92%N; d] ++ b') as IH'.
    { apply IH; [exact Gl| |exact (quiet_tl _ _ _ Q)]. intros I. apply Nl. now right. }
    cbn [flat_map] in E. rewrite <- app_assoc in E. destruct i as [c|c|lo hi]; cbn [sitem_text app good_first] in *.
    + destruct a as [|x a]; cbn [app] in E; injection E as Ex E; [tauto|exact (IH' _ _ E)].
    + destruct a as [|x a]; cbn [app] in E; injection E as Ex E.
      * apply Nl. left. congruence.
      * destruct a as [|y a]; cbn [app] in E; [|injection E as _ E; exact (IH' _ _ E)]. injection E as -> E. destruct (Q [] l eq_refl) as (c & l3 & -> & Nc). cbn [flat_map sitem_text app] in E. now injection E as ->.
    + destruct a as [|x a]; cbn [app] in E; injection E as Ex E; [tauto|]. destruct a as [|y a]; cbn [app] in E; [discriminate E|]. injection E as Ey E.
      destruct a as [|z a]; cbn [app] in E; injection E as Ez E; [tauto|exact (IH' _ _ E)].
Qed.
Lemma no_newline l : Forall good_first l -> ~ In 10%N (flat_map sitem_text l).
Proof.
  induction 1 as [|i l G _ IH]; [intros []|]. cbn [flat_map]. rewrite in_app_iff. intros [I|I]; [|auto].
  destruct i as [c|c|lo hi]; cbn [sitem_text good_first In] in *; intuition (subst; try congruence; try discriminate).
Qed.
Lemma last_in {A} (dec : forall x y : A, {x = y} + {x <> y}) (x : A) l : In x l -> exists l1 l2, l = l1 ++ x :: l2 /\ ~ In x l2.
Proof.
  induction l as [|y l IH]; [intros []|]. intros I. destruct (in_dec dec x l) as [J|J].
  - destruct (IH J) as (l1 & l2 & -> & N). now exists (y :: l1), l2.
  - destruct I as [->|I]; [|contradiction]. now exists [], l.
Qed.
Lemma sitem_dec (x y : sitem) : {x = y} + {x <> y}.
Proof. decide equality; apply N.eq_dec. Qed.

Definition tail_text (h : bool) : str := (if h then [45%N] else []) ++ [93%N] ++ u "*$".
Lemma tail_ok h : ~ In 92%N (tail_text h) /\ ~ In 10%N (tail_text h) /\ In 93%N (tail_text h).
Proof. destruct h; cbn; intuition discriminate. Qed.
Lemma text_of b l h : set_text b l h ++ u "*$" = 91%N :: flat_map sitem_text (all_items b l) ++ tail_text h.
Proof. rewrite set_text_items. unfold tail_text. cbn [app]. now rewrite <- !app_assoc. Qed.
Definition ready (b : bool) (l : list sitem) : Prop := Forall good l /\ (b = true \/ l <> []).

Lemma marked_split b l d : marked b l d -> exists l1 l2, l = l1 ++ SEsc d :: l2 /\ ~ In (SEsc d) l2 /\ (b = true \/ l1 <> []).
Proof.
  unfold marked. destruct b; intros I.
  - destruct (last_in sitem_dec _ _ I) as (l1 & l2 & -> & N). exists l1, l2. repeat split; auto.
  - destruct l as [|i l]; [destruct I|]. destruct (last_in sitem_dec _ _ I) as (l1 & l2 & E & N). cbn [tl] in E. subst l. exists (i :: l1), l2. repeat split; auto. right. discriminate.
Qed.
Lemma marked_dec b l d : marked b l d \/ ~ marked b l d.
Proof. unfold marked. destruct b; [destruct (in_dec sitem_dec (SEsc d) l)|destruct (in_dec sitem_dec (SEsc d) (tl l))]; tauto. Qed.
Lemma items_good b l : Forall good l -> Forall good_first (all_items b l).
Proof. intros G. apply Forall_app. split; [|now apply good_firsts]. destruct b; repeat constructor; discriminate. Qed.
Lemma all_app b l1 l2 : all_items b (l1 ++ l2) = all_items b l1 ++ l2.
Proof. unfold all_items. now rewrite app_assoc. Qed.

Theorem fiddle_set d ins b l h : d <> 92%N -> d <> 10%N -> Forall good l -> (b = true \/ l <> []) -> quiet d l ->
  exists l', fiddle_one [92%N; d] (flat_map sitem_text ins) (set_text b l h ++ u "*$") = set_text b l' h ++ u "*$" /\
    ((marked b l d /\ exists l1 l2, l = l1 ++ SEsc d :: l2 /\ (b = true \/ l1 <> []) /\ l' = l1 ++ ins ++ l2) \/ (~ marked b l d /\ l' = l)).
Proof.
  intros Nd Nd' G B Q. pose proof (fiddle_mends [92%N; d] (flat_map sitem_text ins) (set_text b l h ++ u "*$")) as M. destruct (tail_ok h) as (T1 & T2 & T3). destruct (marked_dec b l d) as [K|K].
  - destruct (marked_split b l d K) as (l1 & l2 & -> & N & B1). exists (l1 ++ ins ++ l2). split; [|left; split; [exact K|]; now exists l1, l2].
    apply (mended_unique _ _ _ _ _ M). left. exists (91%N :: flat_map sitem_text (all_items b l1)), (flat_map sitem_text l2 ++ tail_text h).
    apply Forall_app in G as [G1 G2]. inversion G2 as [|? ? Gd G2']; subst. pose proof (items_good b l1 G1) as Ga. pose proof (good_firsts _ G2') as Gb.
    assert (set_text b (l1 ++ SEsc d :: l2) h ++ u "*$" = (91%N :: flat_map sitem_text (all_items b l1)) ++ [92%N; d] ++ flat_map sitem_text l2 ++ tail_text h) as E.
    { rewrite text_of, all_app, flat_map_app. cbn [flat_map sitem_text app]. now rewrite <- app_assoc. }
    assert (site [92%N; d] (91%N :: flat_map sitem_text (all_items b l1)) (flat_map sitem_text l2 ++ tail_text h) (set_text b (l1 ++ SEsc d :: l2) h ++ u "*$")) as S.
    { constructor.
      - exists []. rewrite app_nil_r. split; [exact E|now left].
      - intros [I|I]; [discriminate I|]. now apply (no_newline _ Ga).
      - rewrite in_app_iff. intros [I|I]; [now apply (no_newline _ Gb)|auto].
      - exists [], (flat_map sitem_text (all_items b l1)). split; [reflexivity|]. unfold all_items. destruct b; [discriminate|]. destruct B1 as [B1|B1]; [discriminate B1|]. destruct l1 as [|[]]; [congruence|discriminate..].
      - apply in_app_iff. now right. }
    split; [exact S|]. split.
    + intros p' q' [(rest & E' & _) _ _ _ _]. rewrite E in E'. destruct (Nat.le_gt_cases (length p') (length (91%N :: flat_map sitem_text (all_items b l1)))) as [?|L]; [assumption|]. exfalso.
      destruct (prefix_in _ p' _ _ E') as (e & -> & Ee); [lia|]. rewrite app_length in L. destruct e as [|x e]; [cbn in L; lia|]. cbn [app] in Ee. injection Ee as _ Ee.
      destruct e as [|y e]; cbn [app] in Ee; injection Ee as Ey Ee; [congruence|]. apply (no_mark d (tail_text h) Nd T1 l2 Gb N) with (a := e) (b := q' ++ rest); [|exact Ee].
      apply quiet_app in Q. exact (quiet_tl _ _ _ Q).
    + rewrite text_of, all_app, !flat_map_app. cbn [app]. now rewrite <- !app_assoc.
  - exists l. split; [|right; now split]. apply (mended_unique _ _ _ _ _ M). right. split; [|reflexivity]. intros p q [(rest & E & _) _ _ (a & c & -> & Nc) _]. rewrite text_of in E.
    pose proof (good_firsts _ G) as Gf. unfold marked in K. unfold all_items in E. destruct b; cbn [app flat_map sitem_text] in E.
    + destruct a as [|x a]; cbn [app] in E; [injection E as E|injection E as Ex E].
      * destruct c as [|y c]; [congruence|]. cbn [app] in E. injection E as Ey E. exact (no_mark d (tail_text h) Nd T1 l Gf K Q c (q ++ rest) E).
      * destruct a as [|y a]; cbn [app] in E; injection E as Ey E; [discriminate Ey|]. rewrite <- app_assoc in E. cbn [app] in E. apply (no_mark d (tail_text h) Nd T1 l Gf K Q (a ++ 91%N :: c) (q ++ rest)). rewrite <- app_assoc. exact E.
    + destruct l as [|i l]; [destruct B; congruence|]. cbn [tl] in K. destruct (sitem_dec i (SEsc d)) as [->|Ni].
      * assert (forall a' b', flat_map sitem_text l ++ tail_text h <> a' ++ [92%N; d] ++ b') as F.
        { apply (no_mark d _ Nd T1); [now inversion Gf|exact K|exact (quiet_tl _ _ _ Q)]. }
        cbn [flat_map sitem_text app] in E. destruct a as [|x a]; cbn [app] in E; [injection E as E|injection E as Ex E].
        -- destruct c as [|y c]; [congruence|]. cbn [app] in E. injection E as Ey E. destruct c as [|z c]; cbn [app] in E; injection E as Ez E; [congruence|]. exact (F _ _ E).
        -- destruct a as [|y a]; cbn [app] in E; injection E as Ey E; [discriminate Ey|]. destruct a as [|z a]; cbn [app] in E; injection E as Ez E.
           ++ apply (F c (q ++ rest)). exact E.
           ++ rewrite <- app_assoc in E. cbn [app] in E. apply (F (a ++ 91%N :: c) (q ++ rest)). rewrite <- app_assoc. exact E.
      * assert (forall a' b', flat_map sitem_text (i :: l) ++ tail_text h <> a' ++ [92%N; d] ++ b') as F.
        { apply (no_mark d _ Nd T1); [exact Gf|intros [I|I]; [now apply Ni|now apply K]|exact Q]. }
        destruct a as [|x a]; cbn [app] in E; [injection E as E|injection E as Ex E]; [exact (F _ _ E)|]. apply (F (a ++ 91%N :: c) (q ++ rest)). cbn [flat_map app]. rewrite <- !app_assoc in *. exact E.
Qed.

(** ** Both marks *)
Lemma esc_means_val c x : esc_means c x -> esc_val c x.
Proof.
  unfold esc_means, esc_val, sign. intros [[-> ->]|[[-> ->]|[[-> ->]|[[S N] ->]]]]; try reflexivity.
  unfold tok_code, escapes, alnum. cbn [dget]. repeat match goal with |- context [(c =? ?k)%N] => destruct (N.eqb_spec c k); [lia|] end.
  repeat match goal with |- context [(?a <=? ?k)%N] => destruct (N.leb_spec a k); try lia end; reflexivity.
Qed.
Lemma esc_val_means c x y : esc_means c x -> esc_val c y -> esc_means c y.
Proof. intros M V. pose proof (esc_means_val _ _ M) as V'. unfold esc_val in *. rewrite V' in V. now injection V as <-. Qed.
Lemma ok_good i : sitem_ok i -> good i.
Proof.
  unfold good. destruct i as [c|c|lo hi]; cbn [sitem_ok good_first]; unfold plain; cbn [In].
  - intros P. split; [repeat split; intros ->; tauto|]. intros [= ->]. tauto.
  - intros (x & M). split; [|discriminate]. split; [|exists x; now apply esc_means_val]. intros ->. destruct M as [[K _]|[[K _]|[[K _]|[[K _] _]]]]; try discriminate K; lia.
  - intros (P & P' & L). split; [|discriminate]. repeat split; try assumption; intros ->; tauto.
Qed.
Lemma ok_holds i x : sitem_ok i -> item_holds i x <-> sitem_has i x.
Proof.
  destruct i as [c|c|lo hi]; cbn [sitem_ok item_holds sitem_has]; try tauto. intros (y & M). split; [intros V; exact (esc_val_means _ _ _ M V)|apply esc_means_val].
Qed.
Lemma ok_no_backslash l : Forall sitem_ok l -> ~ In (SEsc 92%N) l.
Proof.
  intros F I. rewrite Forall_forall in F. destruct (F _ I) as (x & M). unfold esc_means, sign in M. lia.
Qed.
Theorem set_mended b l h : set_ok b l h ->
  exists p, re_compile (regex_fiddle (set_text b l h ++ u "*$")) = Ret (RSeq (RStar (RChr p)) REol) /\
    forall x, p x = true <-> set_has b l h x \/ (marked b l 110%N /\ x = 13%N) \/ (marked b l 123%N /\ x = 92%N).
Proof.
  intros [F C]. assert (Forall good l) as G by (eapply Forall_impl; [|exact F]; exact ok_good). pose proof (ok_no_backslash l F) as NB.
  assert (b = true \/ l <> []) as B by (destruct C as [C|(i & l' & -> & _)]; [now left|right; discriminate]).
  assert (forall d, quiet d l) as Q by (intros d l1 l2 ->; elim NB; apply in_elt).
  unfold regex_fiddle. destruct (fiddle_set 123%N [SEsc 92%N; SChr 123%N] b l h ltac:(discriminate) ltac:(discriminate) G B (Q _)) as (l' & E1 & H1).
  change (flat_map sitem_text [SEsc 92%N; SChr 123%N]) with (u "\\{") in E1. change [92%N; 123%N] with brace_mark in E1. rewrite E1.
  assert (forall x, In x l' <-> (In x l /\ (marked b l 123%N -> x <> SEsc 123%N \/ In x l')) \/ (marked b l 123%N /\ (x = SEsc 92%N \/ x = SChr 123%N))) as I1.
  { intros x. destruct H1 as [(K & l1 & l2 & -> & B1 & ->)|[K ->]]; [|tauto]. rewrite !in_app_iff. cbn [In]. split.
    - intros [I|[[<-|[<-|[]]]|I]]; [left|right; tauto|right; tauto|left]; (split; [tauto|]); intros _; right; tauto.
    - intros [[[I|[<-|I]] N]|[_ [->| ->]]]; tauto. }
  assert (Forall good l') as G1.
  { rewrite Forall_forall in *. intros x I. apply I1 in I as [[I _]|[_ [->| ->]]]; [now apply G| |].
    - split; [|discriminate]. split; [discriminate|]. exists 92%N. reflexivity.
    - split; [|discriminate]. repeat split; discriminate. }
  assert (b = true \/ l' <> []) as B'.
  { destruct H1 as [(_ & l1 & l2 & _ & _ & ->)|[_ ->]]; [right; now destruct l1|exact B]. }
  assert (quiet 110%N l') as Q1.
  { destruct H1 as [(_ & l1 & l2 & -> & _ & ->)|[_ ->]]; [|apply Q]. intros m1 m2 Em. rewrite in_app_iff in NB. cbn [In] in NB.
    assert (~ In (SEsc 92%N) l1) as N1 by tauto. assert (~ In (SEsc 92%N) l2) as N2 by tauto. clear -Em N1 N2. revert l1 Em N1. induction m1 as [|y m1 IH]; intros [|z l1] Em N1; cbn [app] in Em.
    - injection Em as <-. now exists 123%N, l2.
    - injection Em as -> _. elim N1. now left.
    - injection Em as <- Em. destruct m1 as [|y m1]; [discriminate Em|]. injection Em as _ Em. elim N2. rewrite Em. apply in_elt.
    - injection Em as -> Em. apply (IH l1 Em). intros I. apply N1. now right. }
  destruct (fiddle_set 110%N [SEsc 110%N; SEsc 114%N] b l' h ltac:(discriminate) ltac:(discriminate) G1 B' Q1) as (l'' & E2 & H2).
  change (flat_map sitem_text [SEsc 110%N; SEsc 114%N]) with (u "\n\r") in E2. change [92%N; 110%N] with newline_mark in E2. rewrite E2.
  assert (marked b l' 110%N <-> marked b l 110%N) as MM.
  { destruct H1 as [(_ & l1 & l2 & -> & B1 & ->)|[_ ->]]; [|reflexivity]. unfold marked. destruct b.
    - rewrite !in_app_iff. cbn [In]. intuition discriminate.
    - destruct B1 as [B1|B1]; [discriminate B1|]. destruct l1 as [|i l1]; [congruence|]. cbn [app tl]. rewrite !in_app_iff. cbn [In]. intuition discriminate. }
  assert (forall x, In x l'' <-> In x l' \/ (marked b l 110%N /\ x = SEsc 114%N)) as I2.
  { intros x. rewrite <- MM. destruct H2 as [(K & l1 & l2 & -> & _ & ->)|[K ->]]; [|tauto]. rewrite !in_app_iff. cbn [In]. intuition. }
  assert (Forall good l'') as G2.
  { rewrite Forall_forall in *. intros x I. apply I2 in I as [I|[_ ->]]; [now apply G1|]. split; [|discriminate]. split; [discriminate|]. exists 13%N. reflexivity. }
  assert (exists i r r' r'', all_items b l = i :: r /\ all_items b l' = i :: r' /\ all_items b l'' = i :: r'') as (i & r & r' & r'' & Ei & Ei' & Ei'').
  { unfold all_items. destruct b; cbn [app]; [repeat eexists|]. assert (exists i r r', l = i :: r /\ l' = i :: r') as (i & r & r' & -> & ->).
    { destruct H1 as [(_ & l1 & l2 & -> & [B1|B1] & ->)|[_ ->]]; [discriminate B1| |destruct B as [B|B]; [discriminate B|]; destruct l; [congruence|repeat eexists]]. destruct l1; [congruence|]. repeat eexists. }
    destruct H2 as [(_ & l1 & l2 & Em & [B1|B1] & ->)|[_ ->]]; [discriminate B1| |repeat eexists]. destruct l1 as [|j l1]; [congruence|]. injection Em as <- _. repeat eexists. }
  destruct (compile_set b l'' h G2) as (p & Ep & P).
  { rewrite Ei''. unfold all_items in Ei. destruct b; [injection Ei as <- _; discriminate|]. destruct C as [C|(j & m & -> & C)]; [discriminate C|]. injection Ei as <- _. destruct j as [c|c|lo hi]; cbn; [apply C; now left|exact I|apply C; right; now exists hi]. }
  exists p. split; [exact Ep|]. intros x. rewrite P. unfold set_has, all_items. rewrite Forall_forall in F. split.
  - intros [(j & J & Hj)|Hh]; [|tauto]. apply in_app_iff in J as [J|J].
    + destruct b; [|destruct J]. destruct J as [<-|[]]. left. left. now split.
    + apply I2 in J as [J|[K ->]]; [|right; left; split; [exact K|]; cbn in Hj; unfold esc_val in Hj; cbn in Hj; congruence].
      apply I1 in J as [[J _]|[K [->| ->]]].
      * left. right. left. exists j. split; [exact J|]. now apply ok_holds; [apply F|].
      * right. right. split; [exact K|]. cbn in Hj. unfold esc_val in Hj. cbn in Hj. congruence.
      * left. right. left. exists (SEsc 123%N). split; [unfold marked in K; destruct b; [exact K|]; destruct l; [destruct K|now right]|]. cbn in Hj. subst x. cbn. right. right. right. split; [|reflexivity]. unfold sign. lia.
  - intros [[[-> ->]|[(j & J & Hj)|Hh]]|[[K ->]|[K ->]]].
    + left. exists (SChr 93%N). split; [now left|reflexivity].
    + left. apply ok_holds in Hj; [|now apply F]. destruct (sitem_dec j (SEsc 123%N)) as [->|Nj].
      * destruct H1 as [(K & _)|[K E]]; [exists (SChr 123%N)|exists (SEsc 123%N)]; (split; [apply in_app_iff; right; apply I2; left|]).
        -- apply I1. right. tauto.
        -- cbn in Hj. unfold esc_val in Hj. cbn in Hj. cbn. congruence.
        -- now rewrite E.
        -- exact Hj.
      * exists j. split; [|exact Hj]. apply in_app_iff. right. apply I2. left. apply I1. left. tauto.
    + now right.
    + left. exists (SEsc 114%N). split; [apply in_app_iff; right; apply I2; tauto|reflexivity].
    + left. exists (SEsc 92%N). split; [apply in_app_iff; right; apply I2; left; apply I1; tauto|reflexivity].
Qed.
