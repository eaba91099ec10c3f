(** The methods and functions of a whole dictionary. *)
From Coq Require Import String Ascii List NArith PeanoNat Bool Lia.
From Verif Require Import PyBase PyFacts StarBlockModel ValidateModel TreeModel LexModel LexSpec PropertiesLex DrelModel SentenceModel PropertiesSentence TransformModel TransformSpec TransformProofs TransformProofs2.
Import ListNotations.
Open Scope nat_scope.

Lemma pairs_combine ps : forall es l, pairs ps es l <-> l = combine ps es.
Proof.
  induction ps as [|p ps IH]; intros es l; (split; [|intros ->]).
  - inversion 1; reflexivity.
  - constructor.
  - inversion 1 as [|ps0|p0 ps0 e es0 l0 H0]; subst; [reflexivity|]. cbn [combine]. f_equal. now apply IH.
  - destruct es as [|e es]; [constructor|]. cbn [combine]. constructor. now apply IH.
Qed.
Lemma is_list_spec e : is_list e = true <-> exists es, a_list e es.
Proof.
  split.
  - destruct e; try discriminate; intros _; eexists; [left|right]; reflexivity.
  - intros (es & [-> | ->]); reflexivity.
Qed.
Lemma items_list e es : a_list e es -> items_of e = Ret es.
Proof. intros [-> | ->]; reflexivity. Qed.
Lemma items_spec v l : items_of v = Ret l <-> elements v l.
Proof.
  split.
  - destruct v; intros [= <-]; try (constructor; fail); apply elements_list; [left|right]; reflexivity.
  - destruct 1 as [v l H|s|d]; [now apply items_list| |]; reflexivity.
Qed.
Lemma method_pairs_spec t l : method_pairs t = Ret l <-> methods_of t l.
Proof.
  unfold method_pairs, methods_of. fold a_expr. fold a_purpose. destruct (tget a_expr t) as [e|]; [|split; [discriminate|intros (e & p & E & _); discriminate]].
  destruct (tget a_purpose t) as [p|]; [|split; [discriminate|intros (e' & p & _ & E & _); discriminate]].
  destruct (is_list e) eqn:L.
  - apply is_list_spec in L as (es & L). rewrite (items_list _ _ L). split.
    + intros H. exists e, p. repeat split. right. destruct (items_of p) as [ps|] eqn:P; [|discriminate]. cbn [obind] in H. injection H as <-.
      exists es, ps. split; [exact L|]. split; [now apply items_spec|now apply pairs_combine].
    + intros (e' & p' & [= <-] & [= <-] & [[N _] | (es' & ps & L' & P & Q)]); [now elim (N es)|]. apply items_spec in P. rewrite P. cbn [obind]. apply pairs_combine in Q.
      assert (es' = es) as -> by (destruct L as [-> | ->], L' as [L' | L']; congruence). now subst.
  - assert (forall es, ~ a_list e es) as N by (intros es H; assert (is_list e = true) by (apply is_list_spec; eauto); congruence). split.
    + intros [= <-]. exists e, p. repeat split. now left.
    + intros (e' & p' & [= <-] & [= <-] & [[_ ->] | (es' & ps & L' & _)]); [reflexivity|now elim (N es')].
Qed.
Lemma method_pairs_fails t x : method_pairs t = Raise x -> x = KeyErr \/ x = TypeErr.
Proof.
  unfold method_pairs. destruct (tget a_expr t) as [e|]; [|intros [= <-]; now left]. destruct (tget a_purpose t) as [p|]; [|intros [= <-]; now left].
  destruct (is_list e) eqn:L; [|discriminate]. apply is_list_spec in L as (es & L). rewrite (items_list _ _ L). destruct p; cbn; try discriminate; intros [= <-]; now right.
Qed.
Lemma derivable_spec t : derivable t = true <-> has_methods t.
Proof.
  unfold derivable, has_methods, in_functions, tmem, veq_text. fold a_expr. destruct (tget a_expr t); cbn [andb].
  - destruct (tget (u "_name.category_id") t) as [[s| | | | |]|]; cbn [negb]; try (split; [split; discriminate|reflexivity]).
    destruct (str_eqb_spec s (u "function")) as [-> | N]; cbn [negb]; split; try discriminate.
    + intros [_ H]. now elim H.
    + intros _. split; [discriminate|]. now intros [= ->].
    + reflexivity.
  - split; [discriminate|]. intros [H _]. now elim H.
Qed.
Lemma store_spec ts t : with_python t ts (store ts t).
Proof.
  unfold with_python, store. destruct ts as [|x r]; [now left|right]. split; [discriminate|]. unfold tget. split.
  - change (lower (u "_method.py_expression")) with a_python. now rewrite (dget_dset_eq str_eqb str_eqb_spec).
  - intros a N. rewrite (dget_dset_neq str_eqb str_eqb_spec); [reflexivity|exact N].
Qed.

Section Transform.
  Context (make : str -> bool -> list cs -> outcome str).
  Lemma one_spec k t st : s_depth st = 0 ->
    match transform_one make k t st with
    | Ret (t', st') => done_one (make k) t t' /\ s_depth st' = 0
    | Raise x => stopped_at (make k) t x
    end.
  Proof.
    intros D. unfold transform_one. destruct (derivable t) eqn:V.
    - apply derivable_spec in V. destruct (method_pairs t) as [l|x] eqn:P; cbn [obind].
      + apply method_pairs_spec in P. pose proof (methods_spec make k (is_category t) l st D) as H. destruct (methods make k (is_category t) st l) as [[ts st']|x]; cbn [obind fst snd].
        * destruct H as [T D']. split; [|exact D']. right. split; [exact V|]. exists l, ts. split; [exact P|]. split; [exact T|apply store_spec].
        * split; [exact V|]. right. eauto.
      + split; [exact V|]. left. split; [|now apply (method_pairs_fails t)]. intros l H. apply method_pairs_spec in H. congruence.
    - split; [|exact D]. left. split; [|reflexivity]. intros H. apply derivable_spec in H. congruence.
  Qed.
  Theorem transform_spec d : forall st, s_depth st = 0 ->
    match transform make d st with
    | (d', Ret st') => Forall2 (done make) d d' /\ s_depth st' = 0
    | (d', Raise x) => exists d1 d1' k t d2, d = d1 ++ (k, t) :: d2 /\ d' = d1' ++ (k, t) :: d2 /\ Forall2 (done make) d1 d1' /\ stopped_at (make k) t x
    end.
  Proof.
    induction d as [|[k t] r IH]; intros st D; [split; [constructor|exact D]|]. cbn [transform].
    pose proof (one_spec k t st D) as H. destruct (transform_one make k t st) as [[t1 st1]|x].
    - destruct H as [Dn D1]. specialize (IH st1 D1). destruct (transform make r st1) as [d' [st'|x]]; cbn [fst snd].
      + destruct IH as [F D']. split; [|exact D']. constructor; [now split|exact F].
      + destruct IH as (d1 & d1' & k2 & t2 & d2 & -> & -> & F & Q). exists ((k, t) :: d1), ((k, t1) :: d1'), k2, t2, d2. repeat split; try apply Q. constructor; [now split|exact F].
    - exists [], [], k, t, r. repeat split; try apply H. constructor.
  Qed.
  Theorem transform_succeeds d st : s_depth st = 0 ->
    (forall k t, In (k, t) d -> has_methods t -> exists l ts, methods_of t l /\ translations (make k (is_category t)) l ts) ->
    exists d' st', transform make d st = (d', Ret st').
  Proof.
    intros D H. pose proof (transform_spec d st D) as Q. destruct (transform make d st) as [d' [st'|x]]; [eauto|exfalso].
    destruct Q as (d1 & d1' & k & t & d2 & -> & _ & _ & V & Q). destruct (H k t) as (l & ts & M & T); [apply in_elt|exact V|].
    destruct Q as [[N _] | (l' & M' & Q)]; [now elim (N l)|]. apply method_pairs_spec in M, M'. assert (l' = l) as -> by congruence. now apply (translations_stopped _ _ _ T x).
  Qed.
End Transform.

(** ** Functions *)
Lemma function_text_spec s : exists x, unified s x /\ ((s <> [] /\ break (last s 0%N) /\ x = function_text s ++ [10%N]) \/ ((s = [] \/ ~ break (last s 0%N)) /\ function_text s = x)).
Proof.
  destruct (parsed_method_text s) as (x & U & H). exists x. split; [exact U|]. unfold method_text in H. destruct H as [(N & B & E) | (B & E)]; [left; auto|right]. split; [exact B|].
  now apply app_inj_tail in E.
Qed.
Lemma function_read_text s : function_read s (function_text s).
Proof. destruct (function_text_spec s) as (x & U & H). exists x. auto. Qed.
Lemma function_read_fun s t t' : function_read s t -> function_read s t' -> t = t'.
Proof.
  intros (x & U & H) (x' & U' & H'). rewrite <- (unified_fun _ _ U _ U') in *.
  destruct H as [(N & B & E) | (B & E)], H' as [(N' & B' & E') | (B' & E')]; try (exfalso; intuition; fail); [|congruence]. rewrite E in E'. now apply app_inj_tail in E'.
Qed.
Lemma is_function_text s l : is_function s l <-> stands_for (function_text s) l.
Proof.
  split; [|intros H; exists (function_text s); split; [apply function_read_text|exact H]].
  intros (t & P & H). now rewrite (function_read_fun _ _ _ (function_read_text s) P).
Qed.
Lemma defined_spec l f : In f (defined l) <-> defines l f.
Proof.
  unfold defined, defines. rewrite in_flat_map. split.
  - intros (c & I & H). destruct c; try destruct H as [H | []]; try destruct H. eauto.
  - intros (args & b & I). eexists. split; [exact I|]. now left.
Qed.
Lemma in_functions_spec t : in_functions t = true <-> a_function t.
Proof.
  unfold in_functions, a_function, veq_text. destruct (tget (u "_name.category_id") t) as [[s| | | | |]|]; try (split; discriminate).
  destruct (str_eqb_spec s (u "function")) as [-> | N]; split; try reflexivity; try discriminate. now intros [= ->].
Qed.
Lemma filter_none {A} (f : A -> bool) l : filter f l = [] <-> forall x, In x l -> f x = false.
Proof.
  induction l as [|y r IH]; cbn [filter]; [split; [intros _ x []|reflexivity]|]. destruct (f y) eqn:E.
  - split; [discriminate|]. intros H. rewrite (H y) in E by (now left). discriminate.
  - rewrite IH. split; [intros H x [<- | I]; auto|intros H x I; apply H; now right].
Qed.
Lemma filter_one {A} (f : A -> bool) l y : filter f l = [y] <-> exists l1 l2, l = l1 ++ y :: l2 /\ f y = true /\ forall x, In x (l1 ++ l2) -> f x = false.
Proof.
  split.
  - induction l as [|z r IH]; cbn [filter]; [discriminate|]. destruct (f z) eqn:E.
    + intros [= -> H]. exists [], r. split; [reflexivity|]. split; [exact E|]. now apply filter_none.
    + intros H. destruct (IH H) as (l1 & l2 & -> & Y & N). exists (z :: l1), l2. split; [reflexivity|]. split; [exact Y|]. intros x [<- | I]; auto.
  - intros (l1 & l2 & -> & Y & N). rewrite filter_app. cbn [filter]. rewrite Y.
    rewrite (proj2 (filter_none f l1)) by (intros x I; apply N, in_or_app; now left). rewrite (proj2 (filter_none f l2)) by (intros x I; apply N, in_or_app; now right). reflexivity.
Qed.
Lemma veq_not p t : veq_text (Some p) t = false <-> p <> VStr t.
Proof. rewrite <- veq_some. destruct (veq_text (Some p) t); intuition congruence. Qed.
Lemma function_def_spec t n s : object_of t = Ret n /\ evaluation_text t = Ret s <-> function_def t (n, s).
Proof.
  unfold object_of, evaluation_text, function_def. cbn [fst snd]. change (u "_method.purpose") with a_purpose. change (u "_method.expression") with a_expr. split.
  - intros [O E]. split; [destruct (tget (u "_name.object_id") t); congruence|].
    destruct (tget a_purpose t) as [[ | | |ps| |]|]; try discriminate. destruct (tget a_expr t) as [[ | | |es| |]|]; try discriminate.
    destruct (filter (fun px : value * value => veq_text (Some (fst px)) evaluation) (combine ps es)) as [|[p x] [|y q]] eqn:F; try discriminate; [|destruct x; discriminate].
    destruct x as [s'| | | | |]; try discriminate. injection E as ->. apply filter_one in F as (l1 & l2 & F & V & N). cbn [fst] in V. apply veq_some in V. subst p.
    exists ps, es, l1, l2, (combine ps es). repeat split; [now apply pairs_combine|exact F|]. intros p x I. specialize (N _ I). cbn [fst] in N. now apply veq_not in N.
  - intros [O (ps & es & l1 & l2 & l & P & X & Q & E & N)]. split; [now rewrite O|]. rewrite P, X. apply pairs_combine in Q. rewrite <- Q.
    rewrite (proj2 (filter_one (fun px : value * value => veq_text (Some (fst px)) evaluation) l (VStr (u "Evaluation"), VStr s))); [reflexivity|].
    exists l1, l2. split; [exact E|]. split; [reflexivity|]. intros [p x] I. apply veq_not. exact (N p x I).
Qed.
Lemma function_list_spec d : forall l, function_list d = Ret l <-> function_defs d l.
Proof.
  induction d as [|[k t] r IH]; intros l; cbn [function_list].
  - split; [intros [= <-]; constructor|now inversion 1].
  - destruct (in_functions t) eqn:F.
    + apply in_functions_spec in F. split.
      * intros E. destruct (object_of t) as [n|] eqn:O; [|discriminate]. cbn [obind] in E. destruct (evaluation_text t) as [s|] eqn:V; [|discriminate]. cbn [obind] in E.
        destruct (function_list r) as [l'|]; [|discriminate]. injection E as <-. constructor; [exact F|now apply function_def_spec|now apply IH].
      * inversion 1 as [|k0 t0 d0 l0 N|k0 t0 d0 [n s] l' F' D' L']; subst; [contradiction|]. apply function_def_spec in D' as [-> ->]. cbn [obind]. apply IH in L'. now rewrite L'.
    + assert (~ a_function t) as N by (intros H; apply in_functions_spec in H; congruence). split.
      * intros E. constructor; [exact N|now apply IH].
      * inversion 1 as [|k0 t0 d0 l0 N' L'|k0 t0 d0 [n s] l' F' D' L']; subst; [now apply IH|contradiction].
Qed.
Lemma set_all_in names t f : forall g, In f names -> dget str_eqb f (set_all names t g) = Some t.
Proof.
  induction names as [|n r IH]; intros g I; [destruct I|]. cbn [set_all].
  destruct (in_dec (list_eq_dec N.eq_dec) f r) as [J|J]; [now apply IH|].
  destruct I as [-> | I]; [|contradiction]. clear IH. revert g J. assert (forall g, ~ In f r -> dget str_eqb f g = Some t -> dget str_eqb f (set_all r t g) = Some t) as H.
  { induction r as [|m r IH]; intros g J E; [exact E|]. cbn [set_all]. apply IH; [intros H; apply J; now right|]. rewrite (dget_dset_neq str_eqb str_eqb_spec); [exact E|]. intros ->. apply J. now left. }
  intros g J. apply H; [exact J|]. now rewrite (dget_dset_eq str_eqb str_eqb_spec).
Qed.
Lemma set_all_out names t f : forall g, ~ In f names -> dget str_eqb f (set_all names t g) = dget str_eqb f g.
Proof.
  induction names as [|n r IH]; intros g I; [reflexivity|]. cbn [set_all]. rewrite IH by (intros J; apply I; now right). apply (dget_dset_neq str_eqb str_eqb_spec). intros ->. apply I. now left.
Qed.
Section Functions.
  Context (make_func : value -> list cs -> outcome str).
  (** A function that is read and translated. *)
  Definition function_is (ns : value * str) (a : list cs) (t : str) : Prop := is_function (snd ns) a /\ make_func (fst ns) a = Ret t.
  Definition refused (ns : value * str) (x : exc) : Prop :=
    ((forall a, ~ is_function (snd ns) a) /\ x = SyntaxErr) \/ exists a, is_function (snd ns) a /\ make_func (fst ns) a = Raise x.
  (** The functions one after the other, with the last of a name winning. *)
  Inductive loaded : list (value * str) -> globals -> globals -> Prop :=
  | loaded_nil g : loaded [] g g
  | loaded_next ns a t r g g' : function_is ns a t -> loaded r (set_all (defined a) t g) g' -> loaded (ns :: r) g g'.
  Theorem add_functions_spec l : forall st g, s_depth st = 0 ->
    match add_functions make_func l st g with
    | (g', Ret st') => loaded l g g' /\ s_depth st' = 0
    | (g', Raise x) => exists l1 ns l2, l = l1 ++ ns :: l2 /\ loaded l1 g g' /\ refused ns x
    end.
  Proof.
    induction l as [|[n s] r IH]; intros st g D; [split; [constructor|exact D]|]. cbn [add_functions].
    destruct (parse st (function_text s)) as [[a st1]|x] eqn:P.
    - apply parse_ret in P as [Sf D1]; [|exact D]. apply is_function_text in Sf. destruct (make_func n a) as [t|x] eqn:M.
      + specialize (IH st1 (set_all (defined a) t g) D1). destruct (add_functions make_func r st1 (set_all (defined a) t g)) as [g' [st'|x]].
        * destruct IH as [L D']. split; [|exact D']. eapply loaded_next; [|exact L]. now split.
        * destruct IH as (l1 & ns & l2 & -> & L & Q). exists ((n, s) :: l1), ns, l2. split; [reflexivity|]. split; [|exact Q]. eapply loaded_next; [|exact L]. now split.
      + exists [], (n, s), r. split; [reflexivity|]. split; [constructor|]. right. exists a. now split.
    - exists [], (n, s), r. split; [reflexivity|]. split; [constructor|]. left. split; [intros a H; apply is_function_text in H; exact (parse_raise _ _ _ a D P H)|].
      unfold parse in P. destruct (C99_ends st (function_text s)) as [([ts st1] & E) | E]; rewrite E in P; cbn [obind fst snd] in P; [|now injection P].
      destruct (C119_ends ts) as [(a & Q) | Q]; rewrite Q in P; cbn [obind] in P; [discriminate|now injection P].
  Qed.
  Lemma loaded_out f l g g' : loaded l g g' -> (forall ns a t, In ns l -> function_is ns a t -> ~ defines a f) -> dget str_eqb f g' = dget str_eqb f g.
  Proof.
    induction 1 as [g|ns a t r g g' H L IH]; intros N; [reflexivity|]. rewrite IH.
    - apply set_all_out. rewrite defined_spec. apply (N ns a t); [now left|exact H].
    - intros ns' a' t' I. apply N. now right.
  Qed.
  Lemma loaded_last f l1 : forall ns a t l2 g g', loaded (l1 ++ ns :: l2) g g' -> function_is ns a t -> defines a f ->
    (forall ns a t, In ns l2 -> function_is ns a t -> ~ defines a f) -> dget str_eqb f g' = Some t.
  Proof.
    induction l1 as [|ns1 l1 IH]; intros ns a t l2 g g' L H I N; cbn [app] in L; inversion L as [|ns0 a0 t0 r g0 g1 H0 L0]; subst.
    - destruct H as [Sf M], H0 as [Sf0 M0]. apply is_function_text in Sf, Sf0.
      assert (a0 = a) as -> by (destruct (parse_stands fresh _ _ eq_refl Sf) as (b & B & _), (parse_stands fresh _ _ eq_refl Sf0) as (b0 & B0 & _); congruence).
      rewrite M in M0. injection M0 as <-. rewrite (loaded_out f _ _ _ L0 N). apply set_all_in. now apply defined_spec.
    - exact (IH _ _ _ _ _ _ L0 H I N).
  Qed.
End Functions.
