(** The order in which a dictionary is written: the tree. *)
From Coq Require Import String Ascii List NArith PeanoNat Bool Lia Permutation.
From Verif Require Import PyBase PyFacts StarBlockModel CollectionModel CollectionProofs ValidateModel ValidateProofs ValidateProofs2 TreeModel TreeSpec TreeProofs TreeProofs2 OutlineModel OutlineSpec.
Import ListNotations.
Open Scope nat_scope.

(** ** before *)
Lemma before_l l r c a : before l c a -> before (l ++ r) c a.
Proof. intros (x & y & z & ->). exists x, y, (z ++ r). cbn [app]. rewrite <- !app_assoc. cbn [app]. f_equal. f_equal. now rewrite <- app_assoc. Qed.
Lemma before_r l r c a : before r c a -> before (l ++ r) c a.
Proof. intros (x & y & z & ->). exists (l ++ x), y, z. now rewrite <- app_assoc. Qed.
Lemma before_first l c a : In a l -> before (c :: l) c a.
Proof. intros I. apply in_split in I as (y & z & ->). now exists [], y, z. Qed.
Lemma before_concat ys y c a : In y ys -> before y c a -> before (concat ys) c a.
Proof. induction ys as [|x ys IH]; intros I B; [destruct I|]. cbn [concat]. destruct I as [->|I]; [now apply before_l|apply before_r; auto]. Qed.

(** ** The members of a category follow it, in the order of their names *)
Lemma filterM_sorted (R : str -> str -> Prop) (f : str -> outcome bool) l : Sorted.StronglySorted R l -> forall r, filterM f l = Ret r -> Sorted.StronglySorted R r.
Proof.
  induction 1 as [|x l S IH F]; intros r E; cbn [filterM] in E; [injection E as <-; constructor|]. destruct (f x) as [t|]; [|discriminate]. cbn [obind] in E. destruct (filterM f l) as [r0|] eqn:El; [|discriminate]. cbn [obind] in E. injection E as <-. destruct t; [|now apply IH].
  constructor; [now apply IH|]. rewrite Forall_forall in *. intros y I. apply F. clear -El I. revert r0 El I. induction l as [|z l IHl]; intros r0 El I; cbn [filterM] in El; [injection El as <-; destruct I|]. destruct (f z) as [t|]; [|discriminate]. cbn [obind] in El. destruct (filterM f l) as [r1|]; [|discriminate]. cbn [obind] in El. injection El as <-.
  destruct t; [destruct I as [<-|I]; [now left|]|]; right; now apply (IHl r1).
Qed.
Lemma sort_strong l : Sorted.StronglySorted (fun x y => str_leb x y = true) (sort_strs l).
Proof.
  apply Sorted.Sorted_StronglySorted.
  - intros x y z. revert y z. induction x as [|a x IH]; intros [|b y] [|c z] H1 H2; cbn [str_leb] in *; try discriminate; auto. apply orb_true_iff in H1, H2. apply orb_true_iff.
    rewrite andb_true_iff, N.ltb_lt, N.eqb_eq in *. destruct H1 as [H1|[-> H1]], H2 as [H2|[-> H2]]; [left; lia|left; exact H1|left; exact H2|right; split; [reflexivity|exact (IH y z H1 H2)]].
  - apply Sorted.Sorted_LocallySorted_iff. apply sort_sorted.
Qed.

(** ** Looking up *)
Section Book.
Variable b : book.
Hypothesis P : plain b.
Let d := id_table b.
Lemma wf : well_formed d. Proof. exact (p_wf b P). Qed.
Lemma names_ids : bk_names b = bk_top b :: map fst d.
Proof. unfold bk_names, d, id_table. f_equal. rewrite map_map. apply map_ext_in. intros [[n i] t] I. cbn [fst snd]. now destruct (p_names b P n i t I). Qed.
Lemma lookup_key a t : In (a, t) d -> lookup b a = Ret t.
Proof. intros I. unfold lookup. rewrite (w_lower _ wf _ _ I). apply (defs_dget d a t (w_keys _ wf)) in I. fold d. now rewrite I. Qed.
Lemma lookup_top : lookup b (bk_top b) = Ret (bk_top_table b).
Proof.
  destruct (p_top b P) as (N & _ & L). unfold lookup. rewrite L. fold d. assert (dget str_eqb (bk_top b) d = None) as ->.
  { destruct (dget str_eqb (bk_top b) d) as [t|] eqn:E; [|reflexivity]. apply (defs_dget d _ _ (w_keys _ wf)) in E. elim N. apply in_map_iff. now exists (bk_top b, t). }
  cbn [name_table dget]. destruct (str_eqb_spec (bk_top b) (bk_top b)) as [_|D]; [reflexivity|now elim D].
Qed.
Lemma key_table a : In a (map fst d) -> exists t, In (a, t) d.
Proof. intros I. apply in_map_iff in I as ((k & t) & <- & I). now exists t. Qed.
Lemma key_ne a : In a (map fst d) -> lower a = a /\ a <> [].
Proof.
  intros I. split; [exact (key_lower d a wf I)|]. destruct (key_table a I) as (t & It). unfold d, id_table in It. apply in_map_iff in It as ([[n i] t'] & E & I'). cbn [fst snd] in E. injection E as -> _. exact (proj2 (p_names b P n a t' I')).
Qed.
Lemma scope_cat a t : In (a, t) d -> (scope_is "Category" t = true <-> category d a) /\ (scope_is "Item" t = true <-> ~ category d a).
Proof.
  intros I. assert (category d a <-> tget a_scope t = Some (VStr (u "Category"))) as C.
  { split; [|intros E; now exists t]. intros (t' & I' & E). apply (defs_dget d a _ (w_keys _ wf)) in I, I'. assert (t' = t) as -> by congruence. exact E. }
  rewrite C. unfold scope_is. destruct (p_scope b P a t I) as [E|[E|E]]; change (u "_definition.scope") with a_scope in E; rewrite E; cbn [veq_text]; split; split; vm_compute; try discriminate; try tauto; intros H; now elim H.
Qed.

(** ** One step of the recursion *)
Lemma step n p : p <> [] -> lower p = p -> exists items cats, NoDup items /\ NoDup cats /\ Sorted.StronglySorted (fun x y => str_leb x y = true) items /\ (forall a, In a items <-> child d a p /\ ~ category d a) /\ (forall a, In a cats <-> child d a p /\ category d a) /\
  recurse (S n) b p = obind (concatM (recurse n b) cats) (fun below => Ret (p :: items ++ below)).
Proof.
  intros Np Lp. cbn [recurse]. rewrite names_ids.
  destruct (filterM_spec (fun a => obind (lookup b a) (fun t => obind (cat_of t) (fun c => Ret (str_eqb c (lower p))))) (fun a => child d a p) (bk_top b :: map fst d)) as (kids & Ek & Hk & Nk).
  { intros x [<-|I].
    - rewrite lookup_top. cbn [obind]. destruct (p_top b P) as (N & E & _). unfold cat_of. change (u "_name.category_id") with a_category in E. rewrite E. cbn [obind]. eexists. split; [reflexivity|]. rewrite Lp. split.
      + destruct (str_eqb_spec [] p) as [D|_]; [now elim Np|discriminate].
      + intros C. elim N. exact (child_key d _ _ C).
    - destruct (key_table x I) as (t & It). rewrite (lookup_key x t It). cbn [obind]. destruct (cat_of_child d x p t wf It) as (s & -> & Hs). cbn [obind]. eexists. split; [reflexivity|]. rewrite <- Hs. destruct (str_eqb_spec s (lower p)); split; auto; discriminate. }
  rewrite Ek. cbn [obind]. cbv zeta. assert (NoDup kids) as Nkids. { specialize (Nk (fun x => x)). rewrite !map_id in Nk. apply Nk. constructor; [exact (proj1 (p_top b P))|exact (w_keys _ wf)]. }
  assert (forall a, In a kids <-> child d a p) as Hkids. { intros a. rewrite Hk. split; [tauto|]. intros C. split; [right; exact (child_key d _ _ C)|exact C]. }
  assert (NoDup (sort_strs kids)) as Ns by (eapply Permutation_NoDup; [symmetry; apply sort_perm|exact Nkids]).
  assert (forall a, In a (sort_strs kids) <-> child d a p) as Hs. { intros a. rewrite <- Hkids. split; apply Permutation_in; [|symmetry]; apply sort_perm. }
  assert (forall s Q, (forall a t, In (a, t) d -> (scope_is s t = true <-> Q a)) -> exists r, with_scope b s (sort_strs kids) = Ret r /\ NoDup r /\ Sorted.StronglySorted (fun x y => str_leb x y = true) r /\ forall a, In a r <-> child d a p /\ Q a) as G.
  { intros s Q HQ. unfold with_scope. destruct (filterM_spec (fun a => obind (lookup b a) (fun t => Ret (scope_is s t))) Q (sort_strs kids)) as (r & Er & Hr & Nr).
    - intros x I. apply Hs in I. destruct (key_table x (child_key d _ _ I)) as (t & It). rewrite (lookup_key x t It). cbn [obind]. eexists. split; [reflexivity|]. exact (HQ x t It).
    - exists r. split; [exact Er|]. split; [specialize (Nr (fun x => x)); rewrite !map_id in Nr; auto|]. split; [exact (filterM_sorted _ _ _ (sort_strong kids) r Er)|]. intros a. rewrite Hr, Hs. reflexivity. }
  destruct (G "Item"%string (fun a => ~ category d a)) as (items & Ei & Ni & Si & Hi); [intros a t I; now apply scope_cat|]. destruct (G "Category"%string (fun a => category d a)) as (cats & Ec & Nc & _ & Hc); [intros a t I; now apply scope_cat|].
  rewrite Ei, Ec. cbn [obind]. exists items, cats. split; [exact Ni|]. split; [exact Nc|]. split; [exact Si|]. split; [exact Hi|]. split; [exact Hc|reflexivity].
Qed.
Definition val (o : outcome (list str)) : list str := match o with Ret l => l | Raise _ => [] end.
Lemma concatM_ok f cats : (forall x, In x cats -> exists y, f x = Ret y) -> concatM f cats = Ret (flat_map (fun x => val (f x)) cats).
Proof.
  induction cats as [|x cats IH]; intros H; [reflexivity|]. cbn [concatM flat_map]. destruct (H x (or_introl eq_refl)) as (y & E). rewrite E. cbn [obind val]. rewrite IH; [reflexivity|]. intros z I. apply H. now right.
Qed.
Lemma concatM_inv f cats l : concatM f cats = Ret l -> (forall x, In x cats -> exists y, f x = Ret y) /\ l = flat_map (fun x => val (f x)) cats.
Proof.
  revert l. induction cats as [|x cats IH]; intros l E; cbn [concatM] in E; [injection E as <-; split; [intros x []|reflexivity]|].
  destruct (f x) as [y|] eqn:Ex; [|discriminate]. cbn [obind] in E. destruct (concatM f cats) as [z|]; [|discriminate]. cbn [obind] in E. injection E as <-. destruct (IH z eq_refl) as [A ->]. split.
  - intros x' [<-|I]; [now exists y|auto].
  - cbn [flat_map]. now rewrite Ex.
Qed.
Lemma flat_map_perm (f g : str -> list str) l : (forall x, In x l -> Permutation (f x) (g x)) -> Permutation (flat_map f l) (flat_map g l).
Proof. induction l as [|x l IH]; intros H; [reflexivity|]. cbn [flat_map]. apply Permutation_app; [apply H; now left|]. apply IH. intros y I. apply H. now right. Qed.
Lemma subs_flat (f : str -> outcome (list str)) cats subs : Forall2 (fun c s => f c = Ret s) cats subs -> concat subs = flat_map (fun x => val (f x)) cats.
Proof. induction 1 as [|c s cats subs E _ IH]; [reflexivity|]. cbn [concat flat_map]. now rewrite E, IH. Qed.
(** The names are those of ddlm_all_children. *)
Theorem recurse_perm n : forall p l', p <> [] -> lower p = p -> all_children n d p = Ret l' -> exists l, recurse n b p = Ret l /\ Permutation l l'.
Proof.
  induction n as [|n IH]; intros p l' Np Lp E; [discriminate|]. cbn [all_children] in E. destruct (immediate_ok d p wf) as (kids & Ek & Nk & Hk). rewrite Ek in E. cbn [obind] in E. cbn zeta in E. set (cats0 := filter _ kids) in E.
  destruct (add_cats (all_children n d) cats0 kids) as [l0|] eqn:Ea; [|discriminate]. cbn [obind] in E. injection E as <-.
  assert (forall x, In x cats0 <-> child d x p /\ category d x) as Hc0 by (intros x; subst cats0; rewrite filter_In, Hk; now rewrite (category_spec d x wf)).
  destruct (add_cats_ok _ _ _ _ Ea) as (subs & F & ->); [now apply NoDup_filter|intros x Hx; now apply filter_In in Hx|exact Nk|].
  destruct (step n p Np Lp) as (items & cats & Ni & Nc & _ & Hi & Hc & ->).
  assert (Permutation cats cats0) as Pc. { apply NoDup_Permutation; [exact Nc|now apply NoDup_filter|]. intros x. now rewrite Hc, Hc0. }
  assert (forall x, In x cats -> exists y, recurse n b x = Ret y /\ Permutation y (val (all_children n d x))) as T.
  { intros x I. assert (In x cats0) as I0 by (eapply Permutation_in; eassumption). assert (exists s, all_children n d x = Ret s) as (s & Es). { clear -F I0. induction F as [|c s cs ss E _ IHF]; [destruct I0|]. destruct I0 as [<-|I0]; [now exists s|auto]. }
    apply Hc in I as [I _]. destruct (key_ne x (child_key d _ _ I)) as [L N]. destruct (IH x s N L Es) as (y & Ey & Py). exists y. rewrite Es. now split. }
  rewrite concatM_ok by (intros x I; destruct (T x I) as (y & Ey & _); now exists y). cbn [obind]. eexists. split; [reflexivity|]. rewrite (subs_flat _ _ _ F).
  etransitivity; [|apply Permutation_cons_append]. apply perm_skip. apply Permutation_app.
  - apply NoDup_Permutation; [exact Ni|now apply NoDup_filter|]. intros x. rewrite Hi, filter_In, Hk. split; intros [H1 H2]; (split; [exact H1|]).
    + destruct (smem x cats0) eqn:Em; [|reflexivity]. apply smem_spec in Em. apply Hc0 in Em. tauto.
    + intros C. assert (smem x cats0 = true) as Em by (apply smem_spec; apply Hc0; now split). rewrite Em in H2. discriminate.
  - etransitivity; [|apply Permutation_flat_map; exact Pc]. apply flat_map_perm. intros x I. destruct (T x I) as (y & Ey & Py). rewrite Ey. exact Py.
Qed.
(** Every category stands before its members. *)
Theorem recurse_order n : forall p l, p <> [] -> lower p = p -> recurse n b p = Ret l -> forall a c, In a l -> a <> p -> child d a c -> lower c = c -> before l c a.
Proof.
  induction n as [|n IH]; intros p l Np Lp E a c I Na C Lc; [discriminate|]. destruct (step n p Np Lp) as (items & cats & _ & _ & _ & Hi & Hc & Es). rewrite Es in E.
  destruct (concatM (recurse n b) cats) as [below|] eqn:Eb; [|discriminate]. cbn [obind] in E. injection E as <-. destruct (concatM_inv _ _ _ Eb) as [A ->]. destruct I as [I|I]; [now elim Na|].
  assert (forall x, child d x p -> child d x c -> c = p) as U by (intros x H1 H2; rewrite <- Lc, <- Lp; exact (child_unique d x c p wf H2 H1)).
  pose proof I as I0. apply in_app_or in I0 as [I0|I0]; [apply Hi in I0 as [I0 _]; rewrite (U a I0 C); now apply before_first|].
  apply in_flat_map in I0 as (q & Iq & Ia). destruct (A q Iq) as (y & Ey). rewrite Ey in Ia. cbn [val] in Ia. pose proof (proj1 (Hc q) Iq) as [Hq _]. destruct (key_ne q (child_key d _ _ Hq)) as [Lq Nq].
  destruct (list_eq_dec N.eq_dec a q) as [->|Nq']; [rewrite (U q Hq C); now apply before_first|].
  pose proof (IH q y Nq Lq Ey a c Ia Nq' C Lc) as B. apply (before_r (p :: items)). rewrite flat_map_concat_map. apply (before_concat _ y); [|exact B]. apply in_map_iff. exists q. rewrite Ey. now split.
Qed.
(** The members of a category follow it, in the order of their names. *)
Theorem recurse_members n : forall p l, p <> [] -> lower p = p -> recurse n b p = Ret l -> forall c, In c l -> c = p \/ category d c ->
  exists x items z, l = x ++ (c :: items) ++ z /\ Sorted.StronglySorted (fun x y => str_leb x y = true) items /\ forall a, In a items <-> child d a c /\ ~ category d a.
Proof.
  induction n as [|n IH]; intros p l Np Lp E c I Cc; [discriminate|]. destruct (step n p Np Lp) as (items & cats & _ & _ & Si & Hi & Hc & Es). rewrite Es in E.
  destruct (concatM (recurse n b) cats) as [below|] eqn:Eb; [|discriminate]. cbn [obind] in E. injection E as <-. destruct (concatM_inv _ _ _ Eb) as [A ->].
  destruct (list_eq_dec N.eq_dec c p) as [->|Np']; [exists [], items, (flat_map (fun x => val (recurse n b x)) cats); now split|].
  destruct I as [I|I]; [now elim Np'|]. destruct Cc as [->|Cc]; [now elim Np'|]. apply in_app_or in I as [I|I]; [apply Hi in I; tauto|].
  apply in_flat_map in I as (q & Iq & Ia). destruct (A q Iq) as (y & Ey). rewrite Ey in Ia. cbn [val] in Ia. pose proof (proj1 (Hc q) Iq) as [Hq _]. destruct (key_ne q (child_key d _ _ Hq)) as [Lq Nq].
  destruct (IH q y Nq Lq Ey c Ia (or_intror Cc)) as (x & its & z & -> & S & H). apply in_split in Iq as (c1 & c2 & ->). rewrite flat_map_app. cbn [flat_map]. rewrite Ey. cbn [val].
  exists (p :: items ++ flat_map (fun x => val (recurse n b x)) c1 ++ x), its, (z ++ flat_map (fun x => val (recurse n b x)) c2). split; [|now split]. cbn [app]. rewrite <- !app_assoc. cbn [app]. now rewrite <- !app_assoc.
Qed.
End Book.
