(** The reports. *)
From Coq Require Import String Ascii List NArith ZArith Bool Permutation Lia.
From Verif Require Import PyBase PyFacts StarBlockModel StarBlockSpec ValidateModel ValidBlockModel ValidBlockProofs ReportModel ReportSpec.
Import ListNotations.
Open Scope nat_scope.

Lemma Ret_inj {A} (a b : A) : Ret a = Ret b -> a = b.
Proof. now intros [= ->]. Qed.

(** ** Grouping *)
Lemma dget_split {V} k (v : V) l : dget str_eqb k l = Some v -> exists a b, l = a ++ (k, v) :: b /\ forall w, dset str_eqb k w l = a ++ (k, w) :: b.
Proof.
  induction l as [|[x y] l IH]; cbn [dget]; [discriminate|]. cbn [dset]. destruct (str_eqb_spec k x) as [<-|N].
  - intros [= ->]. exists [], l. now split.
  - intros H. destruct (IH H) as (a & b & -> & D). exists ((x, y) :: a), b. split; [reflexivity|]. intros w. cbn [app]. f_equal. apply D.
Qed.
Definition tidy (ts : list (str * rows)) : Prop := NoDup (map fst ts) /\ Forall (fun t => snd t <> []) ts.
Lemma add_error_ok acc c it e : tidy acc -> tidy (add_error acc c it e) /\ Permutation (table_failures (add_error acc c it e)) (table_failures acc ++ [(c, it, e)]).
Proof.
  intros [N F]. unfold add_error. destruct (dget str_eqb c acc) as [l|] eqn:G.
  - destruct (dget_split _ _ _ G) as (a & b & -> & D). rewrite D. split.
    + split; [rewrite map_app in *; exact N|]. apply Forall_app in F as [F1 F2]. inversion F2; subst. apply Forall_app. split; [exact F1|]. constructor; [destruct l; discriminate|assumption].
    + unfold table_failures. rewrite !flat_map_app. cbn [flat_map fst snd]. rewrite map_app. cbn [map fst snd]. rewrite <- !app_assoc. apply Permutation_app_head, Permutation_app_head. cbn [app]. apply Permutation_cons_append.
  - apply (dget_None str_eqb str_eqb_spec) in G. split.
    + split; [|apply Forall_app; split; [exact F|constructor; [discriminate|constructor]]]. rewrite map_app. cbn [map fst]. apply (Permutation_NoDup (l := c :: map fst acc)); [apply Permutation_cons_append|]. now constructor.
    + unfold table_failures. rewrite flat_map_app. reflexivity.
Qed.
Lemma add_errors_ok l : forall acc it, tidy acc -> tidy (add_errors acc it l) /\ Permutation (table_failures (add_errors acc it l)) (table_failures acc ++ map (fun ce => (fst ce, it, snd ce)) l).
Proof.
  induction l as [|[c e] l IH]; intros acc it T; cbn [add_errors map].
  - split; [exact T|]. now rewrite app_nil_r.
  - destruct (add_error_ok acc c it e T) as [T1 P1]. destruct (IH _ it T1) as [T2 P2]. split; [exact T2|]. rewrite P2, P1. now rewrite <- app_assoc.
Qed.
Lemma by_check_ok es : forall acc, tidy acc -> tidy (by_check acc es) /\ Permutation (table_failures (by_check acc es)) (table_failures acc ++ failures es).
Proof.
  induction es as [|[it l] es IH]; intros acc T; cbn [by_check failures flat_map fst snd].
  - split; [exact T|]. now rewrite app_nil_r.
  - destruct (add_errors_ok l acc it T) as [T1 P1]. destruct (IH _ T1) as [T2 P2]. split; [exact T2|]. rewrite P2, P1. now rewrite <- app_assoc.
Qed.
Lemma tidy_nil : tidy [].
Proof. split; constructor. Qed.
Lemma grouped es : tidy (by_check [] es) /\ Permutation (table_failures (by_check [] es)) (failures es).
Proof. exact (by_check_ok es [] tidy_nil). Qed.
(** A property of all failures is one of all rows of the tables. *)
Lemma grouped_all (P : str * str * err -> Prop) es : Forall P (failures es) <-> Forall (fun t => Forall (fun r => P (fst t, fst r, snd r)) (snd t)) (by_check [] es).
Proof.
  destruct (grouped es) as [_ G]. assert (Forall P (failures es) <-> Forall P (table_failures (by_check [] es))) as ->.
  { split; intros H; apply Forall_forall; intros x X; rewrite Forall_forall in H; apply H; [apply (Permutation_in _ G X)|apply (Permutation_in _ (Permutation_sym G) X)]. }
  unfold table_failures. rewrite Forall_flat_map, !Forall_forall. split; intros H t T; specialize (H t T); now rewrite Forall_map in *.
Qed.

Lemma within_refl x : within x x.
Proof. exists [], []. now rewrite app_nil_r. Qed.
Lemma within_l x s t : within x s -> within x (s ++ t).
Proof. intros (a & b & ->). exists a, (b ++ t). now rewrite !app_assoc. Qed.
Lemma within_r x s t : within x t -> within x (s ++ t).
Proof. intros (a & b & ->). exists (s ++ a), b. now rewrite !app_assoc. Qed.
Lemma within_concat x s l : In s l -> within x s -> within x (concat l).
Proof. intros H W. induction l as [|y l IH]; [easy|]. cbn [concat]. destruct H as [->|H]; [now apply within_l|apply within_r; auto]. Qed.

Section Render.
Context (repr_ str_ : value -> str) (str_list : list str -> str).
Notation row_shows := (row_shows repr_ str_ str_list).
Notation table_shows := (table_shows repr_ str_ str_list).

Lemma text_row_shows r s : text_row repr_ str_list r = Ret s -> row_shows false r s.
Proof.
  intros H. unfold text_row in H. apply obind_ret in H as (vals & V & H). injection H as <-.
  unfold nl, ljust. eexists. split; [rewrite <- app_assoc; reflexivity|]. split.
  - intros v E. rewrite E in V. apply obind_ret in V as (l & I1 & V). injection V as <-. exists l. split; [exact I1|]. apply within_r, within_l. unfold ljust. apply within_l, within_refl.
  - intros v [E|[E|E]]; rewrite E; cbn [opt]; apply within_r, within_r; [apply within_l|apply within_r, within_l|apply within_r, within_r]; apply within_l, within_refl.
Qed.
Lemma text_rows_show l : forall s, text_rows repr_ str_list l = Ret s -> exists lines, s = concat lines /\ Forall2 (row_shows false) l lines.
Proof.
  induction l as [|r l IH]; intros s H; cbn [text_rows] in H.
  - injection H as <-. exists []. split; [reflexivity|constructor].
  - apply obind_ret in H as (a & A & H). apply obind_ret in H as (b & B & H). injection H as <-. destruct (IH _ B) as (ls & -> & F). exists (a :: ls). split; [reflexivity|]. constructor; [now apply text_row_shows|exact F].
Qed.
Lemma html_row_shows r : row_shows true r (html_row str_ r).
Proof.
  unfold html_row. eexists. split; [reflexivity|]. split.
  - intros v E. rewrite E. cbn [opt]. apply within_r, within_l, within_r, within_l, within_refl.
  - intros v [E|[E|E]]; rewrite E; cbn [opt]; apply within_r, within_r; [apply within_l|apply within_r, within_l|apply within_r, within_r, within_l]; apply within_r, within_l, within_refl.
Qed.
Lemma one_table_shows html t s : one_table repr_ str_ str_list html t = Ret s -> table_shows html t s.
Proof.
  unfold one_table. destruct (dget str_eqb (fst t) info_table) as [expl|] eqn:G; [|discriminate]. apply (dget_In str_eqb str_eqb_spec) in G. destruct html.
  - unfold html_error_report. destruct (snd t) as [|r l] eqn:S0; [discriminate|]. intros H. assert (s = (u "<h4>" ++ expl ++ u ":</h4>" ++ u "<table cellpadding=5><tr>" ++ html_head (snd r)) ++ concat (map (html_row str_) (r :: l)) ++ u "</table>" ++ nl) as -> by (apply Ret_inj in H; rewrite <- H, <- !app_assoc; reflexivity).
    exists expl. eexists. exists (map (html_row str_) (r :: l)). eexists. split; [exact G|]. split; [reflexivity|]. split; [apply within_r, within_l, within_refl|].
    rewrite S0. generalize (r :: l). clear. intros l. induction l as [|r l IH]; cbn [map]; constructor; [apply html_row_shows|exact IH].
  - intros H. apply obind_ret in H as (x & X & H). injection H as <-. unfold error_report in X. destruct (snd t) as [|r l] eqn:S0; [discriminate|]. apply obind_ret in X as (body & B & X).
    destruct (text_rows_show _ _ B) as (ls & -> & F). assert (x = (nl ++ nl ++ u " " ++ expl ++ u ":" ++ nl ++ nl ++ text_head (snd r)) ++ concat ls) as -> by (apply Ret_inj in X; rewrite <- X, <- !app_assoc; reflexivity).
    exists expl. eexists. exists ls. eexists. split; [exact G|]. split; [rewrite <- app_assoc; reflexivity|]. split; [apply within_r, within_r, within_r, within_l, within_refl|]. rewrite S0. exact F.
Qed.
Lemma tables_show html ts : forall s, tables_text repr_ str_ str_list html ts = Ret s -> exists texts, s = concat texts /\ Forall2 (table_shows html) ts texts.
Proof.
  induction ts as [|t ts IH]; intros s H; cbn [tables_text] in H.
  - injection H as <-. exists []. split; [reflexivity|constructor].
  - apply obind_ret in H as (a & A & H). apply obind_ret in H as (b & B & H). injection H as <-. destruct (IH _ B) as (ls & -> & F). exists (a :: ls). split; [reflexivity|]. constructor; [now apply one_table_shows|exact F].
Qed.
Lemma head_shows html long n ok un : silent html long ok un \/ within (verdict n ok) (block_head html long n ok un).
Proof.
  unfold block_head, verdict. destruct html.
  - destruct ((ok && (negb long || nonempty un) || negb ok)) eqn:E.
    + right. apply within_r, within_l, within_refl.
    + left. destruct ok; [|cbn in E; discriminate]. cbn in E. rewrite orb_false_r in E. destruct long; [|discriminate]. destruct un; [|discriminate]. repeat split.
  - right. apply within_r, within_r, within_l, within_refl.
Qed.
Lemma unmatched_shows html un : Forall (fun k => within k (unmatched html un)) un.
Proof.
  apply Forall_forall. intros k K. unfold unmatched. destruct un as [|x l]; [easy|]. cbn [nonempty]. destruct html.
  - do 4 apply within_r. apply within_l. apply (within_concat _ (u "<tr><td>" ++ k ++ u "</td></tr>")); [now apply (in_map (fun it => u "<tr><td>" ++ it ++ u "</td></tr>"))|]. apply within_r, within_l, within_refl.
  - do 5 apply within_r. apply (within_concat _ (k ++ nl)); [now apply (in_map (fun it => it ++ nl))|]. apply within_l, within_refl.
Qed.
Lemma block_report_shows html long nm b s : block_report repr_ str_ str_list html long nm b = Ret s -> block_shows repr_ str_ str_list html long nm b s.
Proof.
  unfold block_report. destruct (dget str_eqb (fst b) nm) as [un|] eqn:G; [|discriminate]. apply (dget_In str_eqb str_eqb_spec) in G. intros H. apply obind_ret in H as (ts & T & H).
  destruct (tables_show _ _ _ T) as (texts & -> & F). destruct (grouped (snd (snd b))) as [[N _] P].
  exists un, (block_head html long (fst b) (fst (snd b)) un ++ unmatched html un), (by_check [] (snd (snd b))), texts.
  split; [exact G|]. split; [apply Ret_inj in H; now rewrite <- H, <- app_assoc|]. split; [|split; [|split; [exact N|split; [exact P|exact F]]]].
  - destruct (head_shows html long (fst b) (fst (snd b)) un) as [A|A]; [now left|right; now apply within_l].
  - eapply Forall_impl; [|apply (unmatched_shows html un)]. cbv beta. intros k K. now apply within_r.
Qed.
Lemma blocks_report_shows html long nm vr : forall s, blocks_report repr_ str_ str_list html long nm vr = Ret s -> exists parts, s = concat parts /\ Forall2 (block_shows repr_ str_ str_list html long nm) vr parts.
Proof.
  induction vr as [|b vr IH]; intros s H; cbn [blocks_report] in H.
  - injection H as <-. exists []. split; [reflexivity|constructor].
  - apply obind_ret in H as (x & X & H). apply obind_ret in H as (y & Y & H). injection H as <-. destruct (IH _ Y) as (ps & -> & F). exists (x :: ps). split; [reflexivity|]. constructor; [now apply block_report_shows|exact F].
Qed.
Theorem report_ok html vr nm s : validate_report repr_ str_ str_list vr nm html = Ret s -> report_shows repr_ str_ str_list html vr nm s.
Proof.
  unfold validate_report. intros H. apply obind_ret in H as (x & X & H). injection H as <-. destruct (blocks_report_shows _ _ _ _ _ X) as (ps & -> & F). eexists. exists ps. split; [reflexivity|exact F].
Qed.

(** ** When there is a report *)
Lemma obind_some {A B} (o : outcome A) (f : A -> outcome B) : (forall a, exists b, f a = Ret b) -> ((exists b, obind o f = Ret b) <-> exists a, o = Ret a).
Proof.
  intros H. split.
  - intros (b & E). apply obind_ret in E as (a & E & _). now exists a.
  - intros (a & ->). apply H.
Qed.
Lemma text_rows_total l : (exists s, text_rows repr_ str_list l = Ret s) <-> Forall (fun r => forall v, e_values (snd r) = Some v -> exists l, iterate v = Ret l) l.
Proof.
  induction l as [|r l IH]; cbn [text_rows]; [split; [constructor|now exists []]|]. split.
  - intros (s & H). apply obind_ret in H as (a & A & H). apply obind_ret in H as (b & B & _). constructor; [|apply IH; now exists b].
    intros v E. unfold text_row in A. rewrite E in A. apply obind_ret in A as (x & X & _). apply obind_ret in X as (l0 & X & _). now exists l0.
  - intros H. inversion H as [|? ? H1 H2]; subst. apply IH in H2 as (b & B). unfold text_row. destruct (e_values (snd r)) as [v|].
    + destruct (H1 v eq_refl) as (l0 & ->). cbn [obind]. rewrite B. cbn [obind]. eauto.
    + cbn [obind]. rewrite B. cbn [obind]. eauto.
Qed.
Lemma one_table_total html t : snd t <> [] -> ((exists s, one_table repr_ str_ str_list html t = Ret s) <->
  In (fst t) (map fst info_table) /\ (html = true \/ Forall (fun r => forall v, e_values (snd r) = Some v -> exists l, iterate v = Ret l) (snd t))).
Proof.
  destruct t as [c l]. cbn [fst snd]. intros N. unfold one_table. cbn [fst snd]. destruct (dget str_eqb c info_table) as [expl|] eqn:G; cbv iota.
  - apply (dget_In str_eqb str_eqb_spec) in G. assert (In c (map fst info_table)) as J by (change c with (fst (c, expl)); now apply in_map). destruct html.
    + unfold html_error_report. destruct l as [|r l]; [easy|]. split; [intros _; split; [exact J|now left]|intros _; eexists; reflexivity].
    + rewrite obind_some by eauto. unfold error_report. destruct l as [|r l]; [easy|]. rewrite obind_some by eauto. rewrite text_rows_total. split; [intros H; split; [exact J|now right]|intros [_ [H|H]]; [discriminate|exact H]].
  - apply (dget_None str_eqb str_eqb_spec) in G. split; [intros (s & H); discriminate|]. intros [H _]. contradiction.
Qed.
Lemma tables_total html ts : Forall (fun t => snd t <> []) ts -> ((exists s, tables_text repr_ str_ str_list html ts = Ret s) <-> Forall (fun t => exists s, one_table repr_ str_ str_list html t = Ret s) ts).
Proof.
  intros N. induction N as [|t ts Nt N IH]; cbn [tables_text]; [split; [constructor|now exists []]|]. split.
  - intros (s & H). apply obind_ret in H as (a & A & H). apply obind_ret in H as (b & B & _). constructor; [now exists a|apply IH; now exists b].
  - intros H. inversion H as [|? ? (a & A) H2]; subst. apply IH in H2 as (b & B). rewrite A. cbn [obind]. rewrite B. cbn [obind]. eauto.
Qed.
Lemma Forall_and_or {A} (P Q : A -> Prop) (h : bool) l : Forall (fun x => P x /\ (h = true \/ Q x)) l <-> Forall P l /\ (h = true \/ Forall Q l).
Proof.
  induction l as [|x l IH]; split.
  - intros _. split; [constructor|right; constructor].
  - constructor.
  - intros H. inversion H as [|? ? [H1 H2] H3]; subst. apply IH in H3 as [H3 H4]. split; [now constructor|]. destruct h; [now left|right]. destruct H2 as [H2|H2], H4 as [H4|H4]; try discriminate. now constructor.
  - intros [H1 H2]. inversion H1; subst. destruct h.
    + constructor; [split; [assumption|now left]|]. apply IH. split; [assumption|now left].
    + destruct H2 as [H2|H2]; [discriminate|]. inversion H2; subst. constructor; [split; [assumption|now right]|]. apply IH. split; [assumption|now right].
Qed.
Lemma block_total html long nm b : (exists s, block_report repr_ str_ str_list html long nm b = Ret s) <->
  In (fst b) (map fst nm) /\ explained (snd (snd b)) /\ (html = true \/ listable (snd (snd b))).
Proof.
  unfold block_report, explained, listable. rewrite !grouped_all. destruct (grouped (snd (snd b))) as [[_ N] _]. cbn [fst snd].
  assert (forall ts, Forall (fun t => snd t <> []) ts -> ((exists s, tables_text repr_ str_ str_list html ts = Ret s) <->
    Forall (fun t => Forall (fun r : str * err => In (fst t) (map fst info_table)) (snd t)) ts /\
    (html = true \/ Forall (fun t : str * rows => Forall (fun r => forall v, e_values (snd r) = Some v -> exists l, iterate v = Ret l) (snd t)) ts))) as K.
  { intros ts Nt. rewrite tables_total by exact Nt. rewrite <- Forall_and_or. rewrite !Forall_forall in *. split; intros H [c l] T; specialize (H _ T); specialize (Nt _ T); cbn [fst snd] in *.
    - apply (one_table_total html (c, l) Nt) in H as [H1 H2]. split; [|exact H2]. apply Forall_forall. intros _ _. exact H1.
    - apply (one_table_total html (c, l) Nt). destruct H as [H1 H2]. split; [|exact H2]. destruct l as [|r l]; [easy|]. inversion H1; assumption. }
  destruct (dget str_eqb (fst b) nm) as [un|] eqn:G.
  - apply (dget_In str_eqb str_eqb_spec) in G. assert (In (fst b) (map fst nm)) as J by (change (fst b) with (fst (fst b, un)); now apply in_map). rewrite obind_some by eauto. rewrite (K _ N). tauto.
  - apply (dget_None str_eqb str_eqb_spec) in G. split; [intros (s & H); discriminate|]. intros [H _]. contradiction.
Qed.
Theorem report_total html vr nm : (exists s, validate_report repr_ str_ str_list vr nm html = Ret s) <->
  Forall (fun b => In (fst b) (map fst nm) /\ explained (snd (snd b)) /\ (html = true \/ listable (snd (snd b)))) vr.
Proof.
  unfold validate_report. rewrite obind_some by eauto. generalize (Nat.ltb 10 (length vr)). intros long.
  induction vr as [|b vr IH]; cbn [blocks_report]; [split; [constructor|now exists []]|]. split.
  - intros (s & H). apply obind_ret in H as (x & X & H). apply obind_ret in H as (y & Y & _). constructor; [apply (block_total html long nm b); now exists x|apply IH; now exists y].
  - intros H. inversion H as [|? ? H1 H2]; subst. apply (block_total html long nm b) in H1 as (x & X). apply IH in H2 as (y & Y). rewrite X. cbn [obind]. rewrite Y. cbn [obind]. eauto.
Qed.
End Render.

(** ** find_parent *)
Lemma filter_one {A} (f : A -> bool) l x : filter f l = [x] -> In x l /\ f x = true /\ forall y, In y l -> f y = true -> y = x.
Proof.
  intros H. assert (In x (filter f l)) as J by (rewrite H; now left). apply filter_In in J as [J1 J2]. split; [exact J1|]. split; [exact J2|].
  intros y Y F. assert (In y (filter f l)) as K by (apply filter_In; now split). rewrite H in K. destruct K as [<-|[]]. reflexivity.
Qed.
Lemma texts_in_list l s : texts_in (VList (map VStr l)) (VStr s) = mem str_eqb s l.
Proof. cbn [texts_in]. induction l as [|x l IH]; [reflexivity|]. cbn [map existsb mem]. unfold mem in *. cbn [existsb]. now rewrite IH. Qed.
Lemma filter_texts ch names : filter (fun a => negb (texts_in (VList (map VStr ch)) a)) (map VStr names) = map VStr (filter (fun a => negb (mem str_eqb a ch)) names).
Proof. induction names as [|n names IH]; [reflexivity|]. cbn [map filter]. rewrite texts_in_list, IH. destruct (mem str_eqb n ch); reflexivity. Qed.
Theorem find_parent_list def names ch p x : tget (u "_item.name") def = Some (VList (map VStr names)) -> NoDup names ->
  tget (u "_item_linked.child_name") def = Some (VList (map VStr ch)) -> tget (u "_item_linked.parent_name") def = Some p ->
  (find_parent def = Ret (Some (VStr x)) <-> topmost names ch x).
Proof.
  intros E1 ND E2 E3. unfold find_parent. rewrite E1, E2, E3. cbn [iterate obind]. rewrite filter_texts. unfold topmost.
  assert (forall a, negb (mem str_eqb a ch) = true <-> ~ In a ch) as K by (intros a; rewrite negb_true_iff; apply (mem_false _ str_eqb_spec)).
  split.
  - destruct (filter _ names) as [|a [|b l]] eqn:F; try discriminate. cbn [map]. intros [= <-]. apply filter_one in F as (A & B & C). split; [exact A|]. split; [now apply K|]. intros y Y N. apply C; [exact Y|now apply K].
  - intros (A & B & C). assert (filter (fun a => negb (mem str_eqb a ch)) names = [x]) as ->; [|reflexivity].
    assert (In x (filter (fun a => negb (mem str_eqb a ch)) names)) as J by (apply filter_In; split; [exact A|now apply K]).
    assert (forall y, In y (filter (fun a => negb (mem str_eqb a ch)) names) -> y = x) as U by (intros y Y; apply filter_In in Y as [Y1 Y2]; apply C; [exact Y1|now apply K]).
    pose proof (NoDup_filter (fun a => negb (mem str_eqb a ch)) ND) as N. destruct (filter _ names) as [|a [|b l]]; [destruct J|now rewrite (U a (or_introl eq_refl))|].
    exfalso. inversion N as [|? ? N1 N2]; subst. apply N1. rewrite (U a (or_introl eq_refl)), <- (U b (or_intror (or_introl eq_refl))). now left.
Qed.
Theorem find_parent_none def : tget (u "_item.name") def = None -> find_parent def = Ret None.
Proof. intros E. unfold find_parent. now rewrite E. Qed.
Theorem find_parent_single def s : tget (u "_item.name") def = Some (VStr s) -> find_parent def = Ret (Some (VStr s)).
Proof. intros E. unfold find_parent. now rewrite E. Qed.
