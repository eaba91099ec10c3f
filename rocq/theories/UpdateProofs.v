(** Proofs for C135. *)
From Coq Require Import String Ascii List NArith ZArith PeanoNat Bool Permutation Lia.
From Verif Require Import PyBase PyFacts StarBlockModel ScanModel CollectionModel CollectionSpec CollectionProofs CollectionProofs2 CollectionProofs3 CollectionProofs4 PropertiesCollection UpdateModel UpdateSpec.
Import ListNotations.
Open Scope nat_scope.

Lemma key_of_fix : forall n, lower (fix_name true n) = key_of n.
Proof. reflexivity. Qed.
Lemma not_refused : forall c n b, takes (c_std c) (n, b) -> ~ root c (key_of n) -> ~ refuses c n b (key_of n) None.
Proof.
  intros c n b [H1 H2] H [(E & x & I & L) | [L | [[_ R] | [X _]]]].
  - specialize (H2 E x I). lia.
  - cbn [fst] in H1. lia.
  - contradiction.
  - congruence.
Qed.
Lemma new_keeps : forall n b c c' r, ~ In (key_of n) (ckeys c) -> CWF c -> new_block n b true None c = (c', Ret r) ->
  r = key_of n /\ c_std c' = c_std c /\ c_uni c' = c_uni c /\ c_scope c' = c_scope c.
Proof.
  intros n b c c' r NI W. unfold new_block. rewrite key_of_fix.
  destruct (match c_std c with StdCif => setmaxnamelength 75 b | _ => (b, Ret tt) end) as [b1 [x|e]]; [|discriminate].
  destruct (Nat.ltb 75 (length n)); [discriminate|].
  assert (M : smem (key_of n) (c_lower c) = false). { apply smem_false. rewrite (in_set c W). exact NI. }
  rewrite M. intros [= <- <-]. split; [reflexivity|]. split; [reflexivity|]. split; reflexivity.
Qed.
Lemma put_std : forall n b c, CWF c -> visible_ok c -> c_std c <> StdNone -> takes (c_std c) (n, b) -> ~ In (key_of n) (ckeys c) ->
  exists c', c_put n b c = (c', Ret (key_of n)) /\ CWF c' /\ visible_ok c' /\ extended c [(n, b)] c'.
Proof.
  intros n b c W V S T NI.
  assert (NR : ~ root c (key_of n)).
  { intros (i & I). apply NI. apply (Permutation_in _ (cw_table _ W)). apply in_map_iff. exists (key_of n, PC i None). split; [reflexivity|exact I]. }
  destruct (C34_new_block c n b true None (key_of n) W V S) as [[R _] | (_ & c' & r & g & E & W' & V' & G & En & Old & Oe & _ & Gx & Len & Ord)].
  - intros q X. discriminate X.
  - reflexivity.
  - exfalso. exact (not_refused c n b T NR R).
  - destruct (new_keeps n b c c' r NI W E) as (-> & K1 & K2 & K3).
    assert (Id : forall x, g x = x).
    { intros x. destruct (str_eqb_spec (g x) x) as [X|X]; [exact X|]. destruct (Gx x X) as (_ & _ & P & _). congruence. }
    exists c'. split; [exact E|]. split; [exact W'|]. split; [exact V'|].
    split; [|split; [|split; [|split; [|split; [|split; [|split]]]]]]; try assumption.
    + intros n' b' [[= <- <-] | []]. split; [exact G|]. cbn [option_map] in En. exact En.
    + intros x v I. destruct (Old x v I) as [O _]. rewrite Id in O. exact O.
    + intros x e I. specialize (Oe x e I). rewrite Id in Oe. rewrite Oe. destruct e as [i [p|]]; cbn [pc_id pc_parent option_map]; [rewrite Id|]; reflexivity.
    + cbn [map fst]. rewrite Ord. f_equal. rewrite <- (map_id (c_order c)) at 2. apply map_ext. exact Id.
    + rewrite Len. cbn [length]. lia.
Qed.

(** Without a standard: the same as in a dictionary, as long as the name is new. *)
Definition with_std (sd : standard) (c : coll) : coll :=
  Coll (c_dict c) (c_lower c) (c_child c) (c_vis c) (c_order c) sd (c_scope c) (c_uni c) (c_gram c).
Lemma with_std_below : forall sd c p x, below (with_std sd c) p x <-> below c p x.
Proof.
  intros sd c p x. split; intros H; (induction H as [y (i & J) | y z H IH (i & J)]; [apply below_one; exists i; exact J|apply (below_more _ _ y); [exact IH|exists i; exact J]]).
Qed.
Lemma with_std_CWF : forall sd c, CWF (with_std sd c) <-> CWF c.
Proof.
  intros sd c. split; intros [A1 A2 A3 A4 A5 A6 A7]; constructor; try assumption; intros x H; apply (A7 x), (with_std_below sd c); exact H.
Qed.
Lemma put_none_eq : forall n b c, c_std c = StdNone -> length n <= 75 -> ~ In (key_of n) (c_lower c) ->
  c_put n b c = (add_block (key_of n) (underlined n) None b c, Ret (key_of n)).
Proof.
  intros n b c S L NI. unfold c_put, new_block. rewrite S. apply Nat.ltb_ge in L. rewrite L. rewrite key_of_fix.
  apply smem_false in NI. rewrite NI. reflexivity.
Qed.
Lemma put_none : forall n b c, CWF c -> visible_ok c -> c_std c = StdNone -> length n <= 75 -> ~ In (key_of n) (ckeys c) ->
  exists c', c_put n b c = (c', Ret (key_of n)) /\ CWF c' /\ visible_ok c' /\ extended c [(n, b)] c'.
Proof.
  intros n b c W V S L NI.
  assert (NL : ~ In (key_of n) (c_lower c)) by (now rewrite (in_set c W)).
  destruct (put_std n b (with_std StdDic c)) as (d' & E & W' & V' & X).
  - now apply with_std_CWF.
  - exact V.
  - discriminate.
  - split; [exact L|intros Y; discriminate Y].
  - exact NI.
  - exists (add_block (key_of n) (underlined n) None b c). rewrite (put_none_eq n b c S L NL). split; [reflexivity|].
    assert (D : d' = with_std StdDic (add_block (key_of n) (underlined n) None b c)).
    { unfold c_put, new_block in E. cbn [with_std c_std c_lower] in E. assert (L' := L). apply Nat.ltb_ge in L'. rewrite L', key_of_fix in E.
      assert (M := NL). apply smem_false in M. rewrite M in E. injection E as <-. reflexivity. }
    subst d'. apply with_std_CWF in W'. split; [exact W'|]. split; [exact V'|].
    destruct X as (A1 & A2 & A3 & A4 & A5 & A6 & A7 & A8). split; [|split; [exact A2|split; [exact A3|split; [exact A4|split; [exact A5|split; [reflexivity|split; reflexivity]]]]]].
    intros m b' I. specialize (A1 m b' I). unfold stored in *. rewrite S. exact A1.
Qed.
Lemma put_one : forall n b c, CWF c -> visible_ok c -> takes (c_std c) (n, b) -> ~ In (key_of n) (ckeys c) ->
  exists c', c_put n b c = (c', Ret (key_of n)) /\ CWF c' /\ visible_ok c' /\ extended c [(n, b)] c'.
Proof.
  intros n b c W V T NI. destruct (c_std c) eqn:S.
  - apply put_none; try assumption. exact (proj1 T).
  - apply put_std; try assumption; congruence.
  - apply put_std; try assumption; congruence.
Qed.
(** A name that is there: the block is deleted, and then it is new. *)
Lemma put_replaces : forall n b c, CWF c -> visible_ok c -> c_std c = StdNone -> length n <= 75 -> In (key_of n) (c_vis c) ->
  (forall x, below c (key_of n) x -> In x (c_vis c)) -> In (key_of n) (ckeys c) ->
  exists c1 c', c_del (key_of n) c = (c1, Ret tt) /\ ~ In (key_of n) (ckeys c1) /\ c_put n b c = (c', Ret (key_of n)) /\ CWF c' /\ visible_ok c' /\ extended c1 [(n, b)] c'.
Proof.
  intros n b c W V S L Hv Hb Hk. assert (Lk : lower (key_of n) = key_of n) by apply lower_idem.
  destruct (del_result c (key_of n) W V) as (c1 & D & E & -> & ED & W1 & V1).
  { now rewrite Lk. }
  { rewrite Lk. intros x [->|H]; auto. }
  rewrite Lk in ED.
  assert (Kk : ~ In (key_of n) (ckeys (prune D c))).
  { rewrite ckeys_prune, filter_In, kept_true. intros [_ H]. apply H, ED. auto. }
  destruct (put_none n b (prune D c) W1 V1 S L Kk) as (c' & E' & W' & V' & X).
  exists (prune D c), c'. split; [exact E|]. split; [exact Kk|]. split; [|split; [exact W'|split; [exact V'|exact X]]].
  rewrite <- E'. rewrite (put_none_eq n b (prune D c) S L) by (now rewrite (in_set _ W1)).
  unfold c_put, new_block. rewrite S. apply Nat.ltb_ge in L. rewrite L, key_of_fix.
  assert (M : smem (key_of n) (c_lower c) = true) by (apply smem_In; now rewrite (in_set c W)). rewrite M, E. reflexivity.
Qed.

Lemma stored_keeps : forall c c' b, c_std c' = c_std c -> c_uni c' = c_uni c -> stored c' b = stored c b.
Proof. intros c c' b E1 E2. unfold stored. rewrite E1, E2. reflexivity. Qed.
Lemma new_in_keys : forall c n b l c', CWF c -> extended c ((n, b) :: l) c' -> CWF c' -> In (key_of n) (ckeys c').
Proof.
  intros c n b l c' W (H & _) W'. destruct (H n b (or_introl eq_refl)) as [G _].
  apply (c_get_spec _ _ _ W') in G. unfold key_of in G. rewrite lower_idem in G. apply (in_map fst) in G. exact G.
Qed.
Lemma keys_after : forall c n b c', CWF c -> CWF c' -> extended c [(n, b)] c' -> forall x, In x (ckeys c') -> In x (ckeys c) \/ x = key_of n.
Proof.
  intros c n b c' W W' (_ & _ & _ & O & _) x I.
  apply (Permutation_in _ (Permutation_sym (cw_order _ W'))) in I. rewrite O in I. apply in_app_or in I. destruct I as [I | [<- | []]].
  - left. apply (Permutation_in _ (cw_order _ W)). exact I.
  - now right.
Qed.

Lemma update_ok : forall l c, CWF c -> visible_ok c -> Forall (takes (c_std c)) l ->
  NoDup (map (fun x => key_of (fst x)) l) -> (forall x, In x l -> ~ In (key_of (fst x)) (ckeys c)) ->
  exists c', update_pairs l c = (c', Ret tt) /\ CWF c' /\ visible_ok c' /\ extended c l c'.
Proof.
  induction l as [|[n b] l IH]; intros c W V T ND NI.
  - exists c. split; [reflexivity|]. split; [exact W|]. split; [exact V|].
    split; [intros ? ? []|]. split; [|split; [|split; [|split; [|split; [|split]]]]]; try reflexivity.
    + intros x b I. apply c_get_spec; [exact W|]. rewrite (cw_low _ W); [exact I|]. apply (in_map fst) in I. exact I.
    + intros x e E. exact E.
    + cbn [map]. now rewrite app_nil_r.
    + cbn [length]. lia.
  - inversion T as [|x y T1 T2]; subst. cbn [map fst] in ND. inversion ND as [|x y N1 N2]; subst.
    destruct (put_one n b c W V T1 (NI (n, b) (or_introl eq_refl))) as (c1 & E1 & W1 & V1 & X1).
    assert (X1' := X1). destruct X1' as (A1 & A2 & A3 & A4 & A5 & A6 & A7 & A8).
    destruct (IH c1 W1 V1) as (c2 & E2 & W2 & V2 & B1 & B2 & B3 & B4 & B5 & B6 & B7 & B8); [now rewrite A6|exact N2| |].
    { intros x I J. destruct (keys_after c n b c1 W W1 X1 _ J) as [K | K].
      - exact (NI x (or_intror I) K).
      - apply N1. rewrite <- K. apply (in_map (fun x => key_of (fst x))). exact I. }
    exists c2. cbn [update_pairs]. rewrite E1. split; [exact E2|]. split; [exact W2|]. split; [exact V2|].
    split; [|split; [|split; [|split; [|split; [|split; [|split]]]]]]; try congruence.
    + intros n' b' [[= <- <-] | I].
      * destruct (A1 n b (or_introl eq_refl)) as [G1 G2]. split; [|now apply B3].
        apply B2. apply (c_get_spec _ _ _ W1) in G1. unfold key_of in G1 at 1. rewrite lower_idem in G1. exact G1.
      * rewrite <- (stored_keeps c c1 b' A6 A7). now apply B1.
    + intros x v I. apply B2. specialize (A2 x v I). apply (c_get_spec _ _ _ W1) in A2. rewrite (cw_low _ W) in A2; [exact A2|]. apply (in_map fst) in I. exact I.
    + intros x e I. apply B3. now apply A3.
    + rewrite B4, A4. cbn [map fst]. now rewrite <- app_assoc.
    + rewrite B5, A5. cbn [length]. lia.
Qed.

Lemma update_app : forall l1 l2 c c1, update_pairs l1 c = (c1, Ret tt) -> update_pairs (l1 ++ l2) c = update_pairs l2 c1.
Proof.
  induction l1 as [|[n b] l1 IH]; intros l2 c c1 H; cbn [update_pairs app] in *.
  - injection H as ->. reflexivity.
  - destruct (c_put n b c) as [c' [k|e]]; [now apply IH|discriminate H].
Qed.
Lemma put_refused : forall n b c, CWF c -> visible_ok c -> c_std c <> StdNone -> ~ takes (c_std c) (n, b) \/ root c (key_of n) -> c_put n b c = (c, Raise StarErr).
Proof.
  intros n b c W V S H.
  destruct (C34_new_block c n b true None (key_of n) W V S) as [[_ E] | (NR & _)]; [intros q X; discriminate X|reflexivity|exact E|].
  exfalso. apply NR. destruct H as [H | H]; [|right; right; left; now split].
  destruct (le_lt_dec (length n) 75) as [L | L]; [|right; left; exact L].
  left. destruct (c_std c) eqn:Es; [congruence| |].
  - split; [reflexivity|]. destruct (existsb (fun x => 75 <? length x) (b_keys b)) eqn:X.
    + apply existsb_exists in X. destruct X as (x & I & X). exists x. split; [exact I|]. now apply Nat.ltb_lt.
    + exfalso. apply H. split; [exact L|]. intros _ x I. destruct (le_lt_dec (length x) 75) as [Y | Y]; [exact Y|].
      assert (X' : existsb (fun x => 75 <? length x) (b_keys b) = true); [|congruence].
      apply existsb_exists. exists x. split; [exact I|]. now apply Nat.ltb_lt.
  - exfalso. apply H. split; [exact L|]. intros X. discriminate X.
Qed.

Lemma keys_pairs : forall n ks l c, Forall2 (fun k x => fst x = k /\ c_get k n = Ret (snd x)) ks l -> update_keys n ks c = update_pairs l c.
Proof.
  intros n ks l c H. revert c. induction H as [|k [k' b] ks l [E G] H IH]; intros c; cbn [update_keys update_pairs]; [reflexivity|].
  cbn [fst snd] in E, G. subst k'. rewrite G. destruct (c_put k b c) as [c' [r|e]]; [apply IH|reflexivity].
Qed.
Lemma copy_fails : forall cif c c', c_copy cif c <> Ret c'.
Proof.
  intros cif c c'. unfold c_copy. destruct (cif && negb (length (c_dict c) =? 0)); [discriminate|].
  destruct (update_pairs (c_dict c) (new_coll StdCif Instance false)) as [c1 [x|e]]; discriminate.
Qed.
