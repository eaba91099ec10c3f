From Coq Require Import String Ascii List Arith NArith Bool Lia Permutation.
From Verif Require Import PyBase PyFacts StarBlockModel ValidateModel ValidateProofs ValidateProofs2 ValidateProofs3 TreeModel TreeSpec TreeProofs.
Import ListNotations.
Open Scope nat_scope.

Lemma below_under d c a : below_of d c a -> under d c a.
Proof.
  induction 1 as [|q a H IH Hq Hc]; [constructor|]. clear H. revert Hq. induction IH as [c|c q H|c p q H1 H2 H3 IH]; intros Hq.
  - now apply u_child.
  - destruct Hq as [->|Hq]; [now apply u_child|]. apply (u_deep d c q); [exact H|exact Hq|now apply u_child].
  - destruct Hq as [->|Hq]; [now apply u_child|]. apply (u_deep d c p); [exact H1|exact H2|]. apply IH; [exact Hc|now right].
Qed.
Lemma semantic_child_iff n d p a b : well_formed d -> is_semantic_child n d p a = Ret b -> (b = true <-> under d p a).
Proof.
  intros W E. unfold is_semantic_child in E. destruct (all_children n d p) as [l|] eqn:El; [|discriminate]. cbn [obind] in E. injection E as <-. rewrite smem_spec. now apply (all_children_under n).
Qed.
Lemma root_unique d top : well_formed d -> (root_category d = Ret top <-> only_head d top).
Proof.
  intros W. unfold root_category, only_head.
  assert (forall a t, In (a, t) (filter (fun kt => is_head (snd kt)) d) <-> In (a, t) d /\ tget a_class t = Some (VStr (u "Head"))) as Hf.
  { intros a t. rewrite filter_In. cbn [snd]. unfold is_head. now rewrite veq_text_spec. }
  assert (NoDup (map fst (filter (fun kt => is_head (snd kt)) d))) as N.
  { pose proof (w_keys _ W) as N. clear -N. induction d as [|[k t] d IH]; [constructor|]. cbn [map fst] in N. inversion N as [|? ? H1 H2]; subst. cbn [filter]. destruct (is_head _); [|now apply IH]. cbn [map fst]. constructor; [|now apply IH]. intros K. apply H1. apply in_map_iff in K. destruct K as (x & E & K). apply filter_In in K. apply in_map_iff. exists x. now split. }
  destruct (filter _ d) as [|[k t] [|[k' t'] r]].
  - split; [discriminate|]. intros H. destruct (proj2 (H top) eq_refl) as (t & H1 & H2). now destruct (proj2 (Hf top t) (conj H1 H2)).
  - split.
    + intros E. injection E as <-. intros a. split; [intros (t' & H1 & H2); destruct (proj2 (Hf a t') (conj H1 H2)) as [E|[]]; now injection E|]. intros ->. exists t. apply Hf. now left.
    + intros H. f_equal. apply H. exists t. apply Hf. now left.
  - split; [discriminate|]. intros H. assert (k = top) as -> by (apply H; exists t; apply Hf; now left). assert (k' = top) as -> by (apply H; exists t'; apply Hf; right; now left). cbn [map fst] in N. inversion N as [|? ? H1 _]; subst. elim H1. now left.
Qed.
Lemma root_error d : root_category d = Raise TypeErr \/ exists top, root_category d = Ret top.
Proof. unfold root_category. destruct (filter _ d) as [|[k t] [|? ?]]; eauto. Qed.
Lemma category_dec d a : well_formed d -> category d a \/ ~ category d a.
Proof. intros W. pose proof (category_spec d a W) as C. destruct (dget str_eqb a d) as [t|]; [destruct (is_category t)|]; destruct C as [C1 C2]; [left; auto|right; intros K; apply C2 in K; discriminate|right; intros K; apply C2 in K; discriminate]. Qed.
Lemma child_exists d a : well_formed d -> In a (map fst d) -> exists c, child d a c /\ lower c = c.
Proof.
  intros W H. apply in_map_iff in H. destruct H as ((k & t) & <- & H). cbn [fst]. destruct (tget a_category t) as [v|] eqn:E.
  - destruct (w_text _ W _ _ _ H E) as (s & ->). exists (lower s). split; [|apply lower_idem]. exists t. split; [exact H|]. left. exists s. split; [exact E|symmetry; apply lower_idem].
  - exists []. split; [|reflexivity]. exists t. split; [exact H|]. now right.
Qed.
Lemma cat_in d a : category d a -> In a (map fst d).
Proof. intros (t & H & _). apply in_map_iff. now exists (a, t). Qed.
Lemma loose_iff d height top a : well_formed d -> acyclic d height -> In top (map fst d) -> In a (map fst d) -> (loose d top a <-> ~ under d top a).
Proof.
  intros W A Kt Ka. split.
  - intros Lo U. apply under_below in U. clear Ka. induction Lo as [a c N Hc Nc Cc|a c N Hc Nc Lo IH].
    + inversion U as [|q ? H1 H2 H3]; subst; [now elim N|]. pose proof (child_unique d a c q W Hc H3) as Eq. assert (lower q = q) as Lq by (inversion H1; subst; [now apply (key_lower d)|apply (key_lower d _ W); now apply (child_key d q q0)]).
      rewrite Eq, Lq in Nc, Cc. destruct H2 as [->|H2]; [now elim Nc|contradiction].
    + inversion U as [|q ? H1 H2 H3]; subst; [now elim N|]. pose proof (child_unique d a c q W Hc H3) as Eq. assert (lower q = q) as Lq by (inversion H1; subst; [now apply (key_lower d)|apply (key_lower d _ W); now apply (child_key d q q0)]).
      rewrite Eq, Lq in IH. now apply IH.
  - intros NU. set (M := S (list_max (map height (map fst d)))).
    assert (forall x, In x (map fst d) -> height x < M) as Hm.
    { intros x Hx. unfold M. apply Nat.lt_succ_r. pose proof (proj1 (list_max_le (map height (map fst d)) _) (le_n _)) as F. rewrite Forall_forall in F. apply F. now apply in_map. }
    assert (forall k x, category d x -> M - height x <= k -> ~ under d top x -> loose d top x) as G.
    { induction k as [|k IH]; intros x Cx Lk Nx; pose proof (Hm x (cat_in _ _ Cx)) as Lx; [lia|].
      destruct (child_exists d x W (cat_in _ _ Cx)) as (c & Hc & Lc). assert (x <> top) as Nt by (intros ->; apply Nx; constructor).
      assert (lower c <> top) as Nc by (intros E; apply Nx; apply u_child; rewrite <- E, Lc; exact Hc).
      destruct (category_dec d (lower c) W) as [Cc|Cc]; [|now apply (lo_none d top x c)]. apply (lo_up d top x c); auto. pose proof (A x c Hc Cx). apply IH; [exact Cc|lia|]. intros U. apply Nx. apply below_under. apply (bo_child d top (lower c)); [now apply under_below|now right|now rewrite Lc]. }
    destruct (child_exists d a W Ka) as (c & Hc & Lc). assert (a <> top) as Nt by (intros ->; apply NU; constructor).
    assert (lower c <> top) as Nc by (intros E; apply NU; apply u_child; rewrite <- E, Lc; exact Hc).
    destruct (category_dec d (lower c) W) as [Cc|Cc]; [|now apply (lo_none d top a c)]. apply (lo_up d top a c); auto. apply (G (M - height (lower c))); [exact Cc|lia|]. intros U. apply NU. apply below_under. apply (bo_child d top (lower c)); [now apply under_below|now right|now rewrite Lc].
Qed.
Theorem danglers_ok n d height top l : well_formed d -> acyclic d height -> only_head d top -> danglers n d = Ret l -> forall a, In a l <-> In a (map fst d) /\ loose d top a.
Proof.
  intros W A O E a. unfold danglers in E. rewrite (proj2 (root_unique d top W) O) in E. cbn [obind] in E. destruct (all_children n d top) as [l0|] eqn:El; [|discriminate]. cbn [obind] in E. injection E as <-.
  assert (In top (map fst d)) as Kt by (destruct (proj2 (O top) eq_refl) as (t & H & _); apply in_map_iff; now exists (top, t)).
  rewrite filter_In. split.
  - intros [H1 H2]. split; [exact H1|]. apply (loose_iff d height top a W A Kt H1). intros U. apply (all_children_under n d top l0 W El) in U. apply smem_spec in U. rewrite U in H2. discriminate.
  - intros [H1 H2]. split; [exact H1|]. apply (loose_iff d height top a W A Kt H1) in H2. destruct (smem a l0) eqn:Es; [|reflexivity]. elim H2. apply (all_children_under n d top l0 W El). now apply smem_spec.
Qed.
Theorem danglers_total n d height top : well_formed d -> acyclic d height -> only_head d top -> height top < n -> exists l, danglers n d = Ret l.
Proof.
  intros W A O L. unfold danglers. rewrite (proj2 (root_unique d top W) O). cbn [obind]. assert (In top (map fst d)) as Kt by (destruct (proj2 (O top) eq_refl) as (t & H & _); apply in_map_iff; now exists (top, t)).
  destruct (all_children_total n d top height W A) as (l & ->); [now rewrite (key_lower d top W Kt)|]. cbn [obind]. now eexists.
Qed.
(** ** Expansion *)
Lemma category_lower_spec d a : well_formed d -> (match dget str_eqb (lower a) d with Some t => is_category t | None => false end = true <-> category d (lower a)).
Proof. intros W. now apply category_spec. Qed.
Theorem expand_ok n : forall d names l, well_formed d -> expand n d names = Ret l -> forall a, In a l <-> exists c, In c names /\ stands_for d c a.
Proof.
  induction n as [|n IH]; intros d names l W E; [discriminate|]. cbn [expand] in E. revert l E. induction names as [|c names IHn]; intros l E a.
  - injection E as <-. split; [intros []|intros (c & [] & _)].
  - destruct (match dget str_eqb (lower c) d with Some t => is_category t | None => false end) eqn:Ec.
    + apply (category_lower_spec d c W) in Ec. destruct (immediate_ok d c W) as (kids & Ek & _ & Hk). rewrite Ek in E. cbn [obind] in E. destruct (expand n d kids) as [x|] eqn:Ex; [|discriminate]. cbn [obind] in E.
      destruct ((fix each (l0 : list str) := _) names) as [y|] eqn:Ey in E; [|discriminate]. cbn [obind] in E. injection E as <-. rewrite in_app_iff, (IH d kids x W Ex), (IHn y Ey). split.
      * intros [(p & Hp & S)|(p & Hp & S)]; [exists c; split; [now left|]; apply (sf_deep d c p); [exact Ec|now apply Hk|exact S]|exists p; split; [now right|exact S]].
      * intros (p & [<-|Hp] & S); [|right; now exists p]. left. inversion S as [? H|? q ? H1 H2 H3]; subst; [contradiction|]. exists q. split; [now apply Hk|exact H3].
    + assert (~ category d (lower c)) as Nc by (intros K; apply (category_lower_spec d c W) in K; rewrite K in Ec; discriminate). cbn [obind] in E.
      destruct ((fix each (l0 : list str) := _) names) as [y|] eqn:Ey in E; [|discriminate]. cbn [obind] in E. injection E as <-. cbn [app In]. rewrite (IHn y Ey). split.
      * intros [<-|(p & Hp & S)]; [exists c; split; [now left|now constructor]|exists p; split; [now right|exact S]].
      * intros (p & [<-|Hp] & S); [left|right; now exists p]. inversion S; subst; [reflexivity|contradiction].
Qed.
Theorem expand_total n : forall d names height, well_formed d -> acyclic d height -> (forall c, In c names -> category d (lower c) -> S (height (lower c)) < n) -> 0 < n -> exists l, expand n d names = Ret l.
Proof.
  induction n as [|n IH]; intros d names height W A L P; [lia|]. cbn [expand]. clear P. induction names as [|c names IHn]; [now exists []|].
  destruct IHn as (y & Ey); [intros x Hx; apply L; now right|]. rewrite Ey. destruct (match dget str_eqb (lower c) d with Some t => is_category t | None => false end) eqn:Ec.
  - apply (category_lower_spec d c W) in Ec. destruct (immediate_ok d c W) as (kids & Ek & _ & Hk). rewrite Ek. cbn [obind]. pose proof (L c (or_introl eq_refl) Ec) as Lc. destruct (IH d kids height W A) as (x & Ex); [|lia|rewrite Ex; cbn [obind]; now eexists].
    intros q Hq Cq. apply Hk in Hq. rewrite (key_lower d q W (child_key _ _ _ Hq)) in *. pose proof (A q c Hq Cq). lia.
  - cbn [obind]. now eexists.
Qed.
Theorem names_in_cat_ok d c l : well_formed d -> names_in_cat d c = Ret l ->
  forall a, In a l <-> child d a c /\ exists t, In (a, t) d /\ (tget a_scope t = None \/ tget a_scope t = Some (VStr (u "Item"))).
Proof.
  intros W E a. unfold names_in_cat in E. destruct (immediate_ok d c W) as (kids & Ek & _ & Hk). rewrite Ek in E. cbn [obind] in E. injection E as <-. rewrite filter_In, Hk. split; intros [H1 H2]; (split; [exact H1|]).
  - destruct (dget str_eqb a d) as [t|] eqn:E; [|discriminate]. exists t. split; [now apply (defs_dget _ _ _ (w_keys _ W))|]. destruct (tget a_scope t) as [v|] eqn:Es; [right|now left]. apply (veq_text_spec (Some v) (u "Item")). exact H2.
  - destruct H2 as (t & Hin & Hs). apply (defs_dget _ _ _ (w_keys _ W)) in Hin. rewrite Hin. destruct Hs as [->| ->]; reflexivity.
Qed.
(** ** Parent table *)
Lemma looped_spec d a : well_formed d -> (match dget str_eqb a d with Some t => is_loop t | None => false end = true <-> looped d a).
Proof.
  intros W. unfold looped. destruct (dget str_eqb a d) as [t|] eqn:E.
  - unfold is_loop. rewrite veq_text_spec. pose proof E as E'. apply (defs_dget _ _ _ (w_keys _ W)) in E'. split; [intros H; now exists t|]. intros (t' & H' & K). apply (defs_dget _ _ _ (w_keys _ W)) in H'. rewrite E in H'. injection H' as <-. exact K.
  - split; [discriminate|]. intros (t & H & _). apply (defs_dget _ _ _ (w_keys _ W)) in H. rewrite E in H. discriminate.
Qed.
Lemma climb_top n : forall d c p, well_formed d -> In c (map fst d) -> climb n d c = Ret p -> top_loop d c p.
Proof.
  induction n as [|n IH]; intros d c p W K E; cbn [climb] in E; rewrite (key_lower d c W K) in E; destruct (dget str_eqb c d) as [t|] eqn:Et; try discriminate; apply (defs_dget _ _ _ (w_keys _ W)) in Et;
    destruct (tget a_category t) as [[s| | | | |]|] eqn:Ec; try discriminate; pose proof (looped_spec d (lower s) W) as Ls; destruct (dget str_eqb (lower s) d) as [t'|] eqn:Es; try destruct (is_loop t') eqn:El; try discriminate.
  - injection E as <-. apply (tl_top d c t s Et Ec). intros H. apply Ls in H. discriminate.
  - injection E as <-. apply (tl_top d c t s Et Ec). intros H. apply Ls in H. discriminate.
  - apply (tl_up d c t s p Et Ec); [now apply Ls|]. apply IH; [exact W| |exact E]. apply in_map_iff. exists (lower s, t'). split; [reflexivity|]. now apply (defs_dget _ _ _ (w_keys _ W)).
  - injection E as <-. apply (tl_top d c t s Et Ec). intros H. apply Ls in H. discriminate.
  - injection E as <-. apply (tl_top d c t s Et Ec). intros H. apply Ls in H. discriminate.
Qed.
Lemma top_loop_unique d c p p' : well_formed d -> top_loop d c p -> top_loop d c p' -> p = p'.
Proof.
  intros W H. revert p'. induction H as [c t s H1 H2 H3|c t s p H1 H2 H3 H4 IH]; intros p' H'; inversion H' as [? t' s' K1 K2 K3|? t' s' ? K1 K2 K3 K4]; subst; [reflexivity| | |];
    (assert (t' = t) as -> by (apply (defs_dget _ _ _ (w_keys _ W)) in H1, K1; rewrite H1 in K1; now injection K1)); rewrite H2 in K2; injection K2 as <-; [contradiction|contradiction|now apply IH].
Qed.
Lemma climb_total n : forall d c rank, well_formed d -> rising d rank -> looped d c -> rank c <= n -> exists p, climb n d c = Ret p.
Proof.
  induction n as [|n IH]; intros d c rank W R Lc Lr; pose proof Lc as (t & Hin & _); destruct (R c t Hin Lc) as (s & Es & Hs); cbn [climb]; rewrite (w_lower _ W _ _ Hin), (proj2 (defs_dget d c t (w_keys _ W)) Hin); change (tget a_category t = Some (VStr s)) in Es; rewrite Es; pose proof (looped_spec d (lower s) W) as Ls; destruct (dget str_eqb (lower s) d) as [t'|] eqn:Ed; try destruct (is_loop t') eqn:El; try (now eexists).
  - specialize (Hs (proj1 Ls eq_refl)). lia.
  - specialize (Hs (proj1 Ls eq_refl)). apply (IH d (lower s) rank W R); [now apply Ls|lia].
Qed.
Lemma climb_all_spec n d cs : forall l, climb_all n d cs = Ret l -> forall c p, In (c, p) l <-> In c cs /\ climb n d c = Ret p.
Proof.
  induction cs as [|x cs IH]; intros l E c p; cbn [climb_all] in E; [injection E as <-; split; [intros []|intros [[] _]]|].
  destruct (climb n d x) as [q|] eqn:Eq; [|discriminate]. cbn [obind] in E. destruct (climb_all n d cs) as [ps|] eqn:Ep; [|discriminate]. cbn [obind] in E. injection E as <-. cbn [In]. rewrite (IH ps eq_refl). split.
  - intros [K|[K1 K2]]; [injection K as <- <-; now split; [left|]|split; [now right|exact K2]].
  - intros [[->|K1] K2]; [left; congruence|right; now split].
Qed.
Lemma looped_cats_spec d c : well_formed d -> (In c (looped_cats d) <-> category d c /\ looped d c).
Proof.
  intros W. unfold looped_cats. rewrite in_map_iff. split.
  - intros ((k & t) & <- & H). apply filter_In in H. cbn [fst snd] in *. destruct H as [H1 H2]. apply andb_prop in H2. destruct H2 as [H2 H3]. split; exists t; (split; [exact H1|]); now apply veq_text_spec.
  - intros [(t & H1 & H2) (t' & H3 & H4)]. assert (t' = t) as -> by (apply (defs_dget _ _ _ (w_keys _ W)) in H1, H3; rewrite H1 in H3; now injection H3). exists (c, t). split; [reflexivity|]. apply filter_In. split; [exact H1|]. cbn [snd]. apply andb_true_intro. split; now apply veq_text_spec.
Qed.
Theorem parent_lookup_ok n d l : well_formed d -> parent_lookup n d = Ret l -> forall c p, In (c, p) l <-> category d c /\ looped d c /\ top_loop d c p.
Proof.
  intros W E c p. unfold parent_lookup in E. rewrite (climb_all_spec n d _ l E), (looped_cats_spec d c W). split.
  - intros [[H1 H2] H3]. split; [exact H1|]. split; [exact H2|]. apply (climb_top n); auto. now apply cat_in.
  - intros (H1 & H2 & H3). split; [now split|]. assert (exists q, climb n d c = Ret q) as (q & Eq).
    { assert (In c (looped_cats d)) as K by (apply looped_cats_spec; auto). revert l E K. generalize (looped_cats d). clear. induction l as [|x cs IH]; intros l E K; [destruct K|]. cbn [climb_all] in E. destruct (climb n d x) as [q|] eqn:Eq; [|discriminate]. cbn [obind] in E. destruct K as [->|K]; [now exists q|]. destruct (climb_all n d cs) as [ps|]; [|discriminate]. now apply (IH ps). }
    rewrite Eq. f_equal. apply (top_loop_unique d c q p W); [|exact H3]. apply (climb_top n); auto. now apply cat_in.
Qed.
Theorem parent_lookup_total n d rank : well_formed d -> rising d rank -> (forall c, looped d c -> rank c <= n) -> exists l, parent_lookup n d = Ret l.
Proof.
  intros W R Lr. unfold parent_lookup. assert (forall c, In c (looped_cats d) -> looped d c) as H by (intros c Hc; now apply looped_cats_spec in Hc). revert H. generalize (looped_cats d). induction l as [|c cs IH]; intros H; [now exists []|]. cbn [climb_all].
  destruct (climb_total n d c rank W R (H c (or_introl eq_refl)) (Lr c (H c (or_introl eq_refl)))) as (p & ->). cbn [obind]. destruct IH as (ps & ->); [intros x Hx; apply H; now right|]. cbn [obind]. now eexists.
Qed.
(** ** Table of definitions *)
Lemma block_def_id_spec cat_id def_id b i : block_def_id cat_id def_id b = Ret i <-> id_of cat_id def_id b i.
Proof.
  unfold block_def_id, id_of, first_of. destruct (tget cat_id (snd b)) as [v|]; [|destruct (tget def_id (snd b)) as [v|]].
  - split; [destruct v; try discriminate; intros E; injection E as ->; now left|]. intros [E|[[E _]|[E _]]]; [injection E as ->; reflexivity|discriminate|discriminate].
  - split; [destruct v; try discriminate; intros E; injection E as ->; right; now left|]. intros [E|[[_ E]|[_ [E _]]]]; [discriminate|injection E as ->; reflexivity|discriminate].
  - split; [intros E; injection E as ->; now right; right|]. intros [E|[[_ E]|[_ [_ ->]]]]; [discriminate|discriminate|reflexivity].
Qed.
Lemma proto_ok cat_id def_id blocks l : proto_table cat_id def_id blocks = Ret l <-> Forall2 (fun b kv => id_of cat_id def_id b (fst kv) /\ snd kv = fst b) blocks l.
Proof.
  revert l. induction blocks as [|b r IH]; intros l; cbn [proto_table].
  - split; [intros E; injection E as <-; constructor|]. intros F. now inversion F.
  - split.
    + intros E. destruct (block_def_id cat_id def_id b) as [i|] eqn:Ei; [|discriminate]. cbn [obind] in E. destruct (proto_table cat_id def_id r) as [l'|]; [|discriminate]. injection E as <-. constructor; [split; [now apply block_def_id_spec|reflexivity]|]. now apply IH.
    + intros F. inversion F as [|? [i k] ? l' [H1 H2] H3]; subst. cbn [fst snd] in *. subst k. apply block_def_id_spec in H1. rewrite H1. cbn [obind]. apply IH in H3. rewrite H3. reflexivity.
Qed.
Lemma has_dup_spec l : has_dup l = false <-> NoDup l.
Proof.
  induction l as [|x l IH]; cbn [has_dup]; [split; [constructor|reflexivity]|]. rewrite orb_false_iff, IH. split.
  - intros [H1 H2]. constructor; [|exact H2]. intros K. apply smem_spec in K. rewrite K in H1. discriminate.
  - intros N. inversion N as [|? ? H1 H2]; subst. split; [|exact H2]. destruct (smem x l) eqn:E; [|reflexivity]. apply smem_spec in E. contradiction.
Qed.
Lemma dict_of_get l k : NoDup (map fst l) -> dget str_eqb k (dict_of l) = dget str_eqb k l.
Proof.
  unfold dict_of. assert (forall acc, NoDup (map fst l) -> dget str_eqb k (fold_left (fun acc kv => dset str_eqb (fst kv) (snd kv) acc) l acc) = match dget str_eqb k l with Some v => Some v | None => dget str_eqb k acc end) as G.
  { induction l as [|[x v] l IH]; intros acc N; [reflexivity|]. cbn [map fst] in N. inversion N as [|? ? H1 H2]; subst. cbn [fold_left fst snd dget]. rewrite IH by exact H2. destruct (str_eqb_spec k x) as [->|Nk].
    - destruct (dget str_eqb x l) as [w|] eqn:E; [|now rewrite dget_dset_same]. elim H1. apply (dget_In str_eqb str_eqb_spec) in E. apply in_map_iff. now exists (x, w).
    - now rewrite dget_dset_other. }
  intros N. rewrite (G [] N). destruct (dget str_eqb k l); reflexivity.
Qed.
Lemma NoDup_map_filter {A B} (g : A -> B) (f : A -> bool) l : NoDup (map g l) -> NoDup (map g (filter f l)).
Proof.
  induction l as [|x l IH]; [constructor|]. cbn [map filter]. intros N. inversion N as [|? ? H1 H2]; subst. destruct (f x); [|now apply IH]. cbn [map]. constructor; [|now apply IH]. intros K. apply H1. apply in_map_iff in K. destruct K as (y & E & K). apply filter_In in K. apply in_map_iff. exists y. now split.
Qed.
Lemma Forall2_In_l {A B} (R : A -> B -> Prop) l l' x : Forall2 R l l' -> In x l -> exists y, In y l' /\ R x y.
Proof. induction 1 as [|a b l l' H F IH]; [intros []|]. intros [<-|K]; [exists b; split; [now left|exact H]|]. destruct (IH K) as (y & K1 & K2). exists y. split; [now right|exact K2]. Qed.
Lemma Forall2_In_r {A B} (R : A -> B -> Prop) l l' y : Forall2 R l l' -> In y l' -> exists x, In x l /\ R x y.
Proof. induction 1 as [|a b l l' H F IH]; [intros []|]. intros [<-|K]; [exists a; split; [now left|exact H]|]. destruct (IH K) as (x & K1 & K2). exists x. split; [now right|exact K2]. Qed.
Lemma id_of_unique cat_id def_id b i i' : id_of cat_id def_id b i -> id_of cat_id def_id b i' -> i = i'.
Proof. intros H H'. apply block_def_id_spec in H, H'. rewrite H in H'. now injection H'. Qed.
Section Table.
  Variables (cat_id def_id : str) (tops : list str) (blocks : list (str * table)) (ids : list str).
  Hypothesis F : Forall2 (id_of cat_id def_id) blocks ids.
  Let l := combine ids (map fst blocks).
  Lemma table_proto : proto_table cat_id def_id blocks = Ret l.
  Proof. apply proto_ok. unfold l. clear l. induction F as [|b i bs is H _ IH]; cbn [map combine]; [constructor|]. constructor; [now split|]. apply IH. now inversion F. Qed.
  Lemma table_fst : map fst l = ids.
  Proof. unfold l. clear l. induction F as [|b i bs is H _ IH]; cbn [map combine fst]; [reflexivity|]. f_equal. apply IH. now inversion F. Qed.
  Lemma table_dup : ~ NoDup ids -> def_block_table cat_id def_id tops blocks = Raise CifErr.
  Proof.
    intros N. unfold def_block_table. rewrite table_proto. cbn [obind]. rewrite table_fst. destruct (has_dup ids) eqn:E; [reflexivity|]. elim N. now apply has_dup_spec.
  Qed.
  Lemma table_In i n : In (i, n) l <-> exists b, In b blocks /\ id_of cat_id def_id b i /\ n = fst b.
  Proof.
    pose proof (proj1 (proto_ok _ _ _ _) table_proto) as P. split.
    - intros H. destruct (Forall2_In_r _ _ _ _ P H) as (b & H1 & H2 & H3). exists b. cbn [fst snd] in *. auto.
    - intros (b & H1 & H2 & ->). destruct (Forall2_In_l _ _ _ _ P H1) as ((i' & n') & K1 & K2 & K3). cbn [fst snd] in *. subst n'. now rewrite (id_of_unique _ _ _ _ _ H2 K2).
  Qed.
  Lemma table_ok : NoDup (map lower ids) -> NoDup (map fst blocks) -> (forall b, In b blocks -> lower (fst b) = fst b) ->
    exists tbl, def_block_table cat_id def_id tops blocks = Ret tbl
      /\ (forall b i key, In b blocks -> id_of cat_id def_id b i -> ~ In (fst b) tops -> lower key = lower i -> get_definition tbl blocks key = Ret (snd b))
      /\ (forall key, def_contains tbl key = true <-> exists b i, In b blocks /\ id_of cat_id def_id b i /\ ~ In (fst b) tops /\ lower key = lower i).
  Proof.
    intros N Nb Lb. unfold def_block_table. rewrite table_proto. cbn [obind]. rewrite table_fst. rewrite (proj2 (has_dup_spec ids) (NoDup_map_inv _ _ N)). eexists. split; [reflexivity|].
    set (l2 := map (fun kv : str * str => (lower (fst kv), lower (snd kv))) (filter (fun kv : str * str => negb (smem (lower (snd kv)) tops)) l)).
    assert (NoDup (map fst l2)) as N2.
    { unfold l2. rewrite map_map. cbn [fst]. apply (NoDup_map_filter (fun x : str * str => lower (fst x))). rewrite <- (map_map fst lower), table_fst. exact N. }
    assert (forall k n, In (k, n) l2 <-> exists b i, In b blocks /\ id_of cat_id def_id b i /\ ~ In (fst b) tops /\ k = lower i /\ n = fst b) as H2.
    { intros k n. unfold l2. rewrite in_map_iff. split.
      - intros ((i & n') & E & H). cbn [fst snd] in E. apply filter_In in H. cbn [snd] in H. destruct H as [H Ht]. apply table_In in H. destruct H as (b & Hb & Hi & ->). rewrite (Lb b Hb) in *. injection E as <- <-. exists b, i. split; [exact Hb|]. split; [exact Hi|]. split; [|now split]. intros K. apply smem_spec in K. rewrite K in Ht. discriminate.
      - intros (b & i & Hb & Hi & Ht & -> & ->). exists (i, fst b). cbn [fst snd]. rewrite (Lb b Hb). split; [reflexivity|]. apply filter_In. cbn [snd]. rewrite (Lb b Hb). split; [apply table_In; now exists b|]. destruct (smem (fst b) tops) eqn:E; [|reflexivity]. apply smem_spec in E. contradiction. }
    split.
    - intros [bn bt] i key Hb Hi Ht E. unfold get_definition. rewrite (dict_of_get l2 _ N2), E. replace (dget str_eqb (lower i) l2) with (Some bn).
      + cbn [snd]. now rewrite (proj2 (defs_dget blocks bn bt Nb) Hb).
      + symmetry. apply (dget_In_NoDup str_eqb str_eqb_spec); [exact N2|]. apply H2. exists (bn, bt), i. auto.
    - intros key. unfold def_contains, dmem. rewrite (dict_of_get l2 _ N2). destruct (dget str_eqb (lower key) l2) as [n|] eqn:E.
      + split; [intros _|reflexivity]. apply (dget_In str_eqb str_eqb_spec) in E. apply H2 in E. destruct E as (b & i & Hb & Hi & Ht & Ek & _). exists b, i. auto.
      + split; [discriminate|]. intros (b & i & Hb & Hi & Ht & Ek). assert (dget str_eqb (lower key) l2 = Some (fst b)) as K; [|rewrite K in E; discriminate]. apply (dget_In_NoDup str_eqb str_eqb_spec); [exact N2|]. apply H2. exists b, i. auto.
  Qed.
End Table.
