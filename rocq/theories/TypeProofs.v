From Coq Require Import String Ascii List Arith NArith Bool Lia.
From Verif Require Import PyBase PyFacts TypeModel TypeSpec.
Import ListNotations.
Open Scope nat_scope.

Lemma blank_spec c : blank c = true <-> In c [32; 9; 10; 13]%N.
Proof.
  unfold blank. rewrite existsb_exists. split.
  - intros (x & H & E). apply N.eqb_eq in E. now subst x.
  - intros H. exists c. split; [exact H|apply N.eqb_refl].
Qed.
Lemma letter_spec c : letter c = true <-> (65 <= c <= 90 \/ 97 <= c <= 122)%N.
Proof. unfold letter. rewrite orb_true_iff, !andb_true_iff, !N.leb_le. reflexivity. Qed.
Lemma word_check w : w <> [] -> forallb letter w = true -> word w.
Proof. intros N F. split; [exact N|]. rewrite forallb_forall in F. apply Forall_forall. intros c H. apply letter_spec. now apply F. Qed.
Lemma skip_app ws s : blanks ws -> skip (ws ++ s) = skip s.
Proof. induction 1 as [|c ws H _ IH]; [reflexivity|]. cbn [app skip]. apply blank_spec in H. now rewrite H. Qed.
Lemma skip_split s : exists ws, blanks ws /\ s = ws ++ skip s.
Proof.
  induction s as [|c s (ws & B & E)]; [exists []; split; [constructor|reflexivity]|]. cbn [skip]. destruct (blank c) eqn:Ec.
  - exists (c :: ws). split; [constructor; [now apply blank_spec|exact B]|]. cbn [app]. now f_equal.
  - exists []. split; [constructor|reflexivity].
Qed.
Lemma skip_length s : length (skip s) <= length s.
Proof. induction s as [|c s IH]; [apply le_n|]. cbn [skip]. destruct (blank c); cbn [length]; lia. Qed.
Lemma letter_not_blank c : letter c = true -> blank c = false.
Proof. intros H. destruct (blank c) eqn:E; [|reflexivity]. apply letter_spec in H. apply blank_spec in E. cbn [In] in E. lia. Qed.
Lemma skip_word w s : word w -> skip (w ++ s) = w ++ s.
Proof. intros [N F]. destruct w as [|c w]; [now elim N|]. inversion F; subst. cbn [app skip]. rewrite letter_not_blank; [reflexivity|now apply letter_spec]. Qed.
Definition stop (s : str) : Prop := match s with c :: _ => letter c = false /\ c <> 40%N | [] => True end.
Lemma run_app w s : Forall (fun c => (65 <= c <= 90 \/ 97 <= c <= 122)%N) w -> match s with c :: _ => letter c = false | [] => True end -> run (w ++ s) = (w, s).
Proof.
  intros F S. induction F as [|c w H _ IH]; cbn [app run].
  - destruct s as [|c s]; [reflexivity|]. cbn [run]. now rewrite S.
  - apply letter_spec in H. now rewrite H, IH.
Qed.
Lemma run_split s w r : run s = (w, r) -> s = w ++ r /\ Forall (fun c => (65 <= c <= 90 \/ 97 <= c <= 122)%N) w.
Proof.
  revert w r. induction s as [|c s IH]; intros w r E; cbn [run] in E; [injection E as <- <-; split; [reflexivity|constructor]|]. destruct (letter c) eqn:L.
  - destruct (run s) as [w' r'] eqn:Er. injection E as <- <-. destruct (IH w' r' eq_refl) as [-> F]. split; [reflexivity|]. constructor; [now apply letter_spec|exact F].
  - injection E as <- <-. split; [reflexivity|constructor].
Qed.
Lemma after_spec c s r : after c s = Some r <-> s = c :: r.
Proof. unfold after. destruct s as [|x s]; [split; discriminate|]. destruct (N.eqb_spec x c) as [->|N]; split; try discriminate; intros E; injection E as E; subst; auto; contradiction. Qed.
Lemma after_none c x s : x <> c -> after c (x :: s) = None.
Proof. intros N. unfold after. now destruct (N.eqb_spec x c). Qed.
Lemma blanks_stop ws c s : blanks ws -> letter c = false -> c <> 40%N -> stop (ws ++ c :: s).
Proof. intros B L N. destruct B as [|b ws H _]; cbn [app stop]; [now split|]. cbn [In] in H. split; [destruct (letter b) eqn:E; [apply letter_spec in E; lia|reflexivity]|lia]. Qed.
Lemma elem_length x s : elem x s -> 1 <= length s.
Proof. intros H. inversion H as [ws w B W|ws w l s0 ws' B W E B']; subst; rewrite !app_length; destruct W as [N _]; destruct w; try (now elim N); cbn [length]; lia. Qed.
Scheme elem_ind2 := Induction for elem Sort Prop with elems_ind2 := Induction for elems Sort Prop.
Combined Scheme elem_elems_ind from elem_ind2, elems_ind2.
Lemma parse_complete :
  (forall x s, elem x s -> forall n rest, 2 * length s <= n -> stop rest -> p_base n (s ++ rest) = Ret (x, rest))
  /\ (forall l s, elems l s -> forall n rest, 2 * length s + 1 <= n -> stop rest -> after 44 (skip rest) = None -> p_elements n (s ++ rest) = Ret (l, rest)).
Proof.
  apply elem_elems_ind.
  - intros ws w B W n rest L S. pose proof (elem_length _ _ (e_name ws w B W)) as L1. destruct n as [|n]; [lia|]. cbn [p_base]. rewrite <- app_assoc, (skip_app _ _ B), (skip_word _ _ W). destruct W as [Nw F]. rewrite run_app; [|exact F|destruct rest; [exact I|apply S]].
    destruct w as [|c w]; [now elim Nw|]. destruct rest as [|r rest]; [reflexivity|]. rewrite (after_none 40 r rest) by apply S. reflexivity.
  - intros ws w l s ws' B W E IH B' n rest L S. rewrite !app_length in L. cbn [length] in L. rewrite !app_length in L. cbn [length] in L. destruct n as [|n]; [lia|]. cbn [p_base]. rewrite <- !app_assoc. cbn [app]. rewrite (skip_app _ _ B), (skip_word _ _ W). destruct W as [Nw F]. rewrite run_app; [|exact F|reflexivity].
    destruct w as [|c w]; [now elim Nw|]. cbn [after]. change (40 =? 40)%N with true. cbn iota. rewrite ?app_comm_cons, <- ?app_assoc. rewrite IH; [|cbn [length] in L; lia|apply blanks_stop; [exact B'|reflexivity|discriminate]|rewrite (skip_app _ _ B'); reflexivity]. cbn [obind fst snd]. rewrite (skip_app _ _ B'). reflexivity.
  - intros x s E IH n rest L S A. destruct n as [|n]; [lia|]. cbn [p_elements]. rewrite IH; [|lia|exact S]. cbn [obind fst snd]. now rewrite A.
  - intros x l s ws s' E IH B E' IH' n rest L S A. rewrite !app_length in L. cbn [length] in L. destruct n as [|n]; [lia|]. cbn [p_elements]. rewrite <- !app_assoc. cbn [app]. rewrite IH; [|lia|apply blanks_stop; [exact B|reflexivity|discriminate]]. cbn [obind fst snd]. rewrite (skip_app _ _ B). cbn [skip after]. change (blank 44) with false. cbn iota. cbn [after]. change (44 =? 44)%N with true. cbn iota. rewrite IH'; [reflexivity|lia|exact S|exact A].
Qed.
Lemma parse_sound n :
  (forall s x r, p_base n s = Ret (x, r) -> exists s0, s = s0 ++ r /\ elem x s0)
  /\ (forall s l r, p_elements n s = Ret (l, r) -> exists s0, s = s0 ++ r /\ elems l s0).
Proof.
  induction n as [|n [IHb IHe]]; split; intros s x r E; try discriminate.
  - cbn [p_base] in E. destruct (run (skip s)) as [w r0] eqn:Er. destruct (run_split _ _ _ Er) as [Es F]. destruct (skip_split s) as (ws & B & Ews). rewrite Es in Ews. destruct w as [|c w]; [discriminate|]. assert (word (c :: w)) as W by (split; [discriminate|exact F]). destruct (after 40 r0) as [r'|] eqn:Ea.
    + apply after_spec in Ea. subst r0. destruct (p_elements n r') as [[l r1]|] eqn:Ep; [|discriminate]. cbn [obind fst snd] in E. destruct (after 41 (skip r1)) as [r2|] eqn:Ea2; [|discriminate]. injection E as <- <-. apply after_spec in Ea2. destruct (IHe r' l r1 Ep) as (s0 & -> & El). destruct (skip_split r1) as (ws' & B' & E1). rewrite Ea2 in E1.
      exists (ws ++ (c :: w) ++ 40%N :: s0 ++ ws' ++ [41%N]). split; [|now constructor]. rewrite Ews, E1. repeat (rewrite <- app_assoc || rewrite <- app_comm_cons). reflexivity.
    + injection E as <- <-. exists (ws ++ c :: w). split; [rewrite Ews, <- app_assoc; reflexivity|now constructor].
  - cbn [p_elements] in E. destruct (p_base n s) as [[y r0]|] eqn:Eb; [|discriminate]. cbn [obind fst snd] in E. destruct (IHb s y r0 Eb) as (s0 & -> & El). destruct (after 44 (skip r0)) as [r'|] eqn:Ea.
    + apply after_spec in Ea. destruct (skip_split r0) as (ws & B & E0). rewrite Ea in E0. destruct (p_elements n r') as [[l r1]|] eqn:Ep; [|discriminate]. cbn [obind fst snd] in E. injection E as <- <-. destruct (IHe r' l r1 Ep) as (s1 & -> & E1). exists (s0 ++ ws ++ 44%N :: s1). split; [rewrite E0, <- !app_assoc; reflexivity|now constructor].
    + injection E as <- <-. exists s0. split; [reflexivity|now constructor].
Qed.
Lemma parse_errors n :
  (forall s e, length s + 1 <= n -> p_base n s = Raise e -> e = SyntaxErr) /\ (forall s e, length s + 2 <= n -> p_elements n s = Raise e -> e = SyntaxErr).
Proof.
  induction n as [|n [IHb IHe]]; split; intros s e L E; try lia.
  - cbn [p_base] in E. destruct (run (skip s)) as [w r0] eqn:Er. destruct (run_split _ _ _ Er) as [Es _]. pose proof (skip_length s) as Ls. rewrite Es, app_length in Ls. destruct w as [|c w]; [now injection E|]. cbn [length] in Ls. destruct (after 40 r0) as [r'|] eqn:Ea; [|discriminate]. apply after_spec in Ea. subst r0. cbn [length] in Ls. destruct (p_elements n r') as [[l r1]|e'] eqn:Ep.
    + cbn [obind fst snd] in E. destruct (after 41 (skip r1)); [discriminate|now injection E].
    + cbn [obind] in E. injection E as <-. apply (IHe r'); [lia|exact Ep].
  - cbn [p_elements] in E. destruct (p_base n s) as [[y r0]|e'] eqn:Eb; [|cbn [obind] in E; injection E as <-; apply (IHb s); [lia|exact Eb]]. cbn [obind fst snd] in E. destruct (proj1 (parse_sound n) s y r0 Eb) as (s0 & -> & El). apply elem_length in El. rewrite app_length in L. destruct (after 44 (skip r0)) as [r'|] eqn:Ea; [|discriminate]. apply after_spec in Ea. pose proof (skip_length r0) as Ls. rewrite Ea in Ls. cbn [length] in Ls.
    destruct (p_elements n r') as [[l r1]|e'] eqn:Ep; [discriminate|]. cbn [obind] in E. injection E as <-. apply (IHe r'); [lia|exact Ep].
Qed.
Theorem interpret_iff s t : interpret_structure s = Ret t <-> type_text t s.
Proof.
  unfold interpret_structure. split.
  - intros E. destruct (p_elements _ s) as [[l r]|] eqn:Ep; [|discriminate]. cbn [obind fst snd] in E. destruct (proj2 (parse_sound _) s l r Ep) as (s0 & -> & El). destruct (skip_split r) as (ws & B & Er). destruct (skip r) as [|c r']; [|discriminate]. rewrite app_nil_r in Er. subst r. exists l, s0, ws. split; [reflexivity|]. split; [exact El|]. split; [exact B|].
    destruct l as [|x [|y l]]; injection E as <-; [right; split; [reflexivity|discriminate]|now left|right; split; [reflexivity|discriminate]].
  - intros (l & s0 & ws & -> & El & B & Ht). rewrite (proj2 parse_complete l s0 El).
    + cbn [obind fst snd]. rewrite <- (app_nil_r ws), (skip_app _ _ B). cbn [skip]. destruct Ht as [->|[-> N]]; [reflexivity|]. destruct l as [|x [|y l]]; [reflexivity|now elim N|reflexivity].
    + rewrite app_length. lia.
    + destruct B as [|b ws H _]; [exact I|]. cbn [stop]. cbn [In] in H. split; [destruct (letter b) eqn:Eb; [apply letter_spec in Eb; lia|reflexivity]|lia].
    + rewrite <- (app_nil_r ws), (skip_app _ _ B). reflexivity.
Qed.
Theorem interpret_total s : (exists t, interpret_structure s = Ret t) \/ interpret_structure s = Raise SyntaxErr.
Proof.
  unfold interpret_structure. destruct (p_elements _ s) as [[l r]|e] eqn:Ep; cbn [obind fst snd].
  - destruct (skip r); [|now right]. left. destruct l as [|x [|y l]]; eauto.
  - right. f_equal. apply (proj2 (parse_errors (2 * length s + 2)) s e); [lia|exact Ep].
Qed.
(** Trees and lists of trees. *)
Lemma tree_rect2 (P : tree -> Prop) : (forall w, P (TName w)) -> (forall l, Forall P l -> P (TList l)) -> forall t, P t.
Proof. intros H1 H2. fix IH 1. intros [w|l]; [apply H1|]. apply H2. induction l as [|x l IHl]; constructor; [apply IH|exact IHl]. Qed.
Lemma print_elem t : proper t -> elem t (print t).
Proof.
  induction t as [w|l IH] using tree_rect2; intros P; [exact (e_name [] w (Forall_nil _) P)|]. cbn [proper] in P. destruct P as [N P]. cbn [print].
  set (more := fix more (l : list tree) : str := match l with [] => [] | [x] => print x | x :: r => print x ++ 44%N :: more r end).
  assert (elems l (more l)) as E.
  { induction l as [|x l IHl]; [now elim N|]. inversion IH as [|? ? Hx Hl]; subst. destruct P as [Px Pl]. destruct l as [|y l]; [constructor; now apply Hx|]. change (more (x :: y :: l)) with (print x ++ [] ++ 44%N :: more (y :: l)). constructor; [now apply Hx|constructor|]. apply IHl; [exact Hl|discriminate|exact Pl]. }
  change (u "List(" ++ more l ++ [41%N]) with ([] ++ u "List" ++ 40%N :: more l ++ [] ++ [41%N]). apply e_list; [constructor| |exact E|constructor]. apply word_check; [discriminate|vm_compute; reflexivity].
Qed.
Theorem print_parse t : proper t -> interpret_structure (print t) = Ret t.
Proof. intros P. apply interpret_iff. exists [t], (print t), []. split; [now rewrite app_nil_r|]. split; [constructor; now apply print_elem|]. split; [constructor|now left]. Qed.
(** ** Conversion *)
Lemma map_o_ok {A B} (f : A -> outcome B) l r : map_o f l = Ret r <-> Forall2 (fun x y => f x = Ret y) l r.
Proof.
  revert r. induction l as [|x l IH]; intros r; cbn [map_o].
  - split; [intros E; injection E as <-; constructor|]. intros F. now inversion F.
  - split.
    + intros E. destruct (f x) as [y|] eqn:Ey; [|discriminate]. cbn [obind] in E. destruct (map_o f l) as [ys|] eqn:Es; [|discriminate]. injection E as <-. constructor; [exact Ey|]. now apply IH.
    + intros F. inversion F as [|? y ? ys H1 H2]; subst. rewrite H1. cbn [obind]. apply IH in H2. now rewrite H2.
Qed.
