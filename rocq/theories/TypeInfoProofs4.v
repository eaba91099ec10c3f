(** The table of types; the parser always ends. *)
From Coq Require Import String Ascii List NArith PeanoNat Bool Lia.
From Verif Require Import PyBase PyFacts StarBlockModel RegexModel RegexSpec TypeInfoModel TypeInfoSpec TypeInfoProofs TypeInfoProofs2 TypeInfoProofs3.
Import ListNotations.
Open Scope nat_scope.

Lemma dset_fresh {V} k (v : V) l : ~ In k (map fst l) -> dset str_eqb k v l = l ++ [(k, v)].
Proof.
  induction l as [|[k' v'] l IH]; intros N; [reflexivity|]. cbn [dset map fst app] in *. destruct (str_eqb_spec k k') as [->|Ne]; [elim N; now left|]. rewrite IH; [reflexivity|]. intros I. apply N. now right.
Qed.
Lemma with_dollar_ok cs : with_dollar (map VStr cs) = Ret (map (fun c => c ++ u "$") cs).
Proof. induction cs as [|c cs IH]; [reflexivity|]. cbn [map with_dollar]. now rewrite IH. Qed.
Lemma add_types_ok : forall ks cs rs d, Forall2 (fun c r => re_compile (regex_fiddle c) = Ret r) cs rs -> length ks = length cs -> NoDup (map fst d ++ ks) ->
  add_types (map VStr ks) cs d = Ret (d ++ combine ks rs).
Proof.
  induction ks as [|k ks IH]; intros cs rs d F L N.
  - destruct cs; [|discriminate L]. cbn. now rewrite app_nil_r.
  - destruct cs as [|c cs]; [discriminate L|]. inversion F as [|? r ? rs' Ec F']; subst. cbn [map add_types]. rewrite Ec. cbn [obind].
    apply NoDup_remove in N as [N Nk]. rewrite dset_fresh by (intros I; apply Nk, in_app_iff; now left).
    rewrite (IH cs rs' (d ++ [(k, r)]) F'); [|now injection L|].
    + cbn [combine]. now rewrite <- app_assoc.
    + rewrite map_app. cbn [map fst]. rewrite <- app_assoc. cbn [app]. now apply NoDup_Add with (a := k) (l := map fst d ++ ks); [apply Add_app|].
Qed.
Lemma add_prims_ok : forall ks ps d, length ks = length ps -> NoDup (map fst d ++ ks) -> add_prims (map VStr ks) ps d = Ret (d ++ combine ks ps).
Proof.
  induction ks as [|k ks IH]; intros ps d L N.
  - destruct ps; [|discriminate L]. cbn. now rewrite app_nil_r.
  - destruct ps as [|p ps]; [discriminate L|]. cbn [map add_prims].
    apply NoDup_remove in N as [N Nk]. rewrite dset_fresh by (intros I; apply Nk, in_app_iff; now left).
    rewrite (IH ps (d ++ [(k, p)])); [|now injection L|].
    + cbn [combine]. now rewrite <- app_assoc.
    + rewrite map_app. cbn [map fst]. rewrite <- app_assoc. cbn [app]. now apply NoDup_Add with (a := k) (l := map fst d ++ ks); [apply Add_app|].
Qed.
Lemma has_construct b v : get_item (u "_item_type_list.construct") b = Ret v -> dget str_eqb (u "_item_type_list.construct") (b_data b) <> None.
Proof.
  unfold get_item. change (str_eqb (u "_item_type_list.construct") (u "saves")) with false. cbn iota. unfold get_full.
  change (lower (u "_item_type_list.construct")) with (u "_item_type_list.construct"). intros H E. rewrite E in H. discriminate H.
Qed.
Theorem type_table b ks ps cs rs : NoDup ks -> length ks = length cs -> length ks = length ps ->
  get_item (u "_item_type_list.code") b = Ret (VList (map VStr ks)) ->
  get_item (u "_item_type_list.primitive_code") b = Ret (VList ps) ->
  get_item (u "_item_type_list.construct") b = Ret (VList (map VStr cs)) ->
  Forall2 (fun c r => re_compile (regex_fiddle (c ++ u "$")) = Ret r) cs rs ->
  add_type_info b = Ret (combine ks rs, combine ks ps).
Proof.
  intros N Lc Lp Gk Gp Gc F. unfold add_type_info. pose proof (has_construct _ _ Gc) as H. destruct (dget _ _ _); [|congruence].
  rewrite Gk, Gp, Gc. cbn [obind py_iter]. rewrite with_dollar_ok. cbn [obind].
  rewrite (add_types_ok ks (map (fun c => c ++ u "$") cs) rs []); [|clear -F; induction F; cbn [map]; constructor; auto|now rewrite map_length|exact N].
  cbn [obind]. rewrite (add_prims_ok ks ps []); [reflexivity|exact Lp|exact N].
Qed.
Lemma dget_combine {V} : forall ks (rs : list V) i k r, NoDup ks -> nth_error ks i = Some k -> nth_error rs i = Some r -> dget str_eqb k (combine ks rs) = Some r.
Proof.
  induction ks as [|k0 ks IH]; intros rs i k r N Ek Er; [destruct i; discriminate Ek|]. destruct rs as [|r0 rs]; [destruct i; discriminate Er|]. inversion N as [|? ? Nk N']; subst. cbn [combine dget]. destruct i as [|i].
  - cbn in Ek, Er. injection Ek as ->. injection Er as ->. now rewrite str_eqb_refl.
  - cbn in Ek, Er. destruct (str_eqb_spec k k0) as [->|_]; [elim Nk; now apply nth_error_In in Ek|]. exact (IH rs i k r N' Ek Er).
Qed.
(** A single type that is not looped. *)
Theorem single_type b c k s v : get_item (u "_item_type_list.code") b = Ret (VStr (c :: k)) ->
  get_item (u "_item_type_list.primitive_code") b = Ret v -> get_item (u "_item_type_list.construct") b = Ret (VStr (91%N :: s)) -> add_type_info b = Raise ValueErr.
Proof.
  intros Gk Gp Gc. unfold add_type_info. pose proof (has_construct _ _ Gc) as H. destruct (dget _ _ _); [|congruence]. rewrite Gk, Gp, Gc. cbn [obind py_iter].
  assert (map (fun x : N => VStr [x]) (91%N :: s) = map VStr ([91%N] :: map (fun x => [x]) s)) as -> by (cbn [map]; now rewrite map_map).
  rewrite with_dollar_ok. cbn [obind map add_types].
  replace (re_compile (regex_fiddle ([91%N] ++ u "$"))) with (@Raise re ValueErr) by (vm_compute; reflexivity). reflexivity.
Qed.

(** ** Fuel *)
Definition fits {A} (n : nat) (o : outcome (A * list tok)) : Prop := o <> Raise OutOfFuel /\ forall a r, o = Ret (a, r) -> length r <= n.
Lemma fits_ret {A} n (a : A) r : length r <= n -> fits n (Ret (a, r)).
Proof. intros L. split; [discriminate|]. now intros a' r' [= <- <-]. Qed.
Lemma fits_raise {A} n e : e <> OutOfFuel -> @fits A n (Raise e).
Proof. intros N. split; [congruence|]. intros a r [=]. Qed.
Lemma fits_bind {A B} n m (o : outcome (A * list tok)) (f : A * list tok -> outcome (B * list tok)) : fits n o -> (forall a r, length r <= n -> fits m (f (a, r))) -> fits m (obind o f).
Proof. intros [F L] H. destruct o as [[a r]|e]; cbn [obind]; [apply H; now apply (L a)|]. apply fits_raise. congruence. Qed.
Lemma tok_code_fits t : tok_code t <> Raise OutOfFuel.
Proof. destruct t as [[|] c]; cbn [tok_code]; [|discriminate]. destruct (dget _ _ _); [discriminate|]. destruct (alnum c); discriminate. Qed.
Lemma code_bind {B} n t (f : N -> outcome (B * list tok)) : (forall c, fits n (f c)) -> fits n (obind (tok_code t) f).
Proof. intros H. pose proof (tok_code_fits t) as K. destruct (tok_code t); cbn [obind]; [apply H|]. apply fits_raise. congruence. Qed.
Lemma set_items_fits : forall n ts first, length ts <= n -> fits n (set_items first ts).
Proof.
  induction n as [|n IH]; intros [|t r] first L; cbn [length] in L; cbn [set_items]; try (apply fits_raise; discriminate); [lia|].
  assert (forall lo, fits (S n) (obind (set_items false r) (fun p => Ret ((lo, lo) :: fst p, snd p)))) as One.
  { intros lo. apply (fits_bind n); [apply IH; lia|]. intros a r' L'. apply fits_ret. cbn. lia. }
  destruct (is_tok 93 t && negb first); [apply fits_ret; lia|]. apply code_bind. intros lo.
  destruct r as [|h [|t2 r3]]; [apply One| |]; cbn [length] in L; (destruct (is_tok 45 h); [|apply One]); [apply fits_raise; discriminate|].
  destruct (is_tok 93 t2); [apply fits_ret; lia|]. apply code_bind. intros hi. destruct (hi <? lo)%N; [apply fits_raise; discriminate|].
  apply (fits_bind n); [apply IH; lia|]. intros a r' L'. apply fits_ret. cbn. lia.
Qed.
Lemma p_set_fits ts : fits (length ts) (p_set ts).
Proof.
  destruct ts as [|t r]; cbn [p_set]; [apply fits_raise; discriminate|]. destruct (is_tok 94 t).
  - apply (fits_bind (length r)); [now apply set_items_fits|]. intros a r' L. apply fits_ret. cbn. lia.
  - apply (fits_bind (length (t :: r))); [now apply set_items_fits|]. intros a r' L. now apply fits_ret.
Qed.
Lemma no_rep_fits a ts : fits (length ts) (no_rep a ts).
Proof. destruct ts as [|t r]; cbn [no_rep]; [now apply fits_ret|]. destruct (rep_sign t); [destruct (is_tok 123 t || is_tok 43 t); apply fits_raise; discriminate|now apply fits_ret]. Qed.
Lemma fits_le {A} n m (o : outcome (A * list tok)) : fits n o -> n <= m -> fits m o.
Proof. intros [F L] H. split; [exact F|]. intros a r E. specialize (L a r E). lia. Qed.
Lemma p_rep_fits a ts : fits (length ts) (p_rep a ts).
Proof.
  destruct ts as [|t r]; cbn [p_rep]; [now apply fits_ret|]. destruct (rep_sign t); [|now apply fits_ret].
  set (z := match r with q :: _ => is_tok 63 q | [] => false end). assert (length (if z then tl r else r) <= length (t :: r)) as L by (destruct z; [destruct r|]; cbn; lia).
  destruct (is_tok 42 t); [eapply fits_le; [apply no_rep_fits|exact L]|]. destruct (is_tok 43 t); [eapply fits_le; [apply no_rep_fits|exact L]|].
  destruct (is_tok 63 t); [eapply fits_le; [apply no_rep_fits|exact L]|]. apply fits_raise. discriminate.
Qed.
Lemma parser_fits : forall n,
  (forall ts, 3 * length ts + 3 <= n -> fits (length ts) (p_alt n ts)) /\
  (forall ts, 3 * length ts + 2 <= n -> fits (length ts) (p_seq n ts)) /\
  (forall t r, 3 * length r + 4 <= n -> fits (length r) (p_atom n t r)).
Proof.
  induction n as [|n (IHa & IHs & IHt)]; [repeat split; intros; lia|]. split; [|split].
  - intros ts L. cbn [p_alt]. apply (fits_bind (length ts)); [apply IHs; lia|]. intros a r Lr. cbn [fst snd]. destruct r as [|t r]; [now apply fits_ret|]. cbn [length] in Lr. destruct (is_tok 124 t); [|now apply fits_ret].
    apply (fits_bind (length r)); [apply IHa; lia|]. intros b r' Lr'. apply fits_ret. cbn. lia.
  - intros [|t r] L; cbn [p_seq]; [now apply fits_ret|]. cbn [length] in *. destruct (is_tok 124 t || is_tok 41 t); [now apply fits_ret|]. destruct (is_tok 36 t).
    + apply (fits_bind (length r)); [apply IHs; lia|]. intros a r' Lr'. apply fits_ret. cbn. lia.
    + apply (fits_bind (length r)); [apply IHt; lia|]. intros a r' Lr'. apply (fits_bind (length r')); [apply p_rep_fits|]. intros a' r2 Lr2. apply (fits_bind (length r2)); [apply IHs; cbn [snd]; lia|].
      intros b r3 Lr3. apply fits_ret. cbn. lia.
  - intros t r L. cbn [p_atom]. destruct (is_tok 91 t); [apply p_set_fits|]. destruct (is_tok 46 t); [now apply fits_ret|]. destruct (is_tok 40 t).
    + destruct r as [|q r]; [apply fits_raise; discriminate|]. destruct (is_tok 63 q); [apply fits_raise; discriminate|]. apply (fits_bind (length (q :: r))); [apply IHa; lia|].
      intros a r' Lr'. cbn [snd fst]. destruct r' as [|e r']; [apply fits_raise; discriminate|]. destruct (is_tok 41 e); [apply fits_ret; cbn in *; lia|apply fits_raise; discriminate].
    + destruct (is_tok 94 t || is_tok 123 t); [apply fits_raise; discriminate|]. destruct (rep_sign t); [apply fits_raise; discriminate|]. apply code_bind. intros c. now apply fits_ret.
Qed.
Lemma toks_fits : forall n s, length s <= n -> toks s <> Raise OutOfFuel.
Proof.
  induction n as [|n IH]; intros [|c s] L; cbn [length] in L; cbn [toks]; try discriminate; [lia|]. destruct (c =? 92)%N.
  - destruct s as [|d r]; [discriminate|]. cbn [length] in L. specialize (IH r ltac:(lia)). destruct (toks r); cbn [obind]; congruence.
  - specialize (IH s ltac:(lia)). destruct (toks s); cbn [obind]; congruence.
Qed.
Theorem compile_ends s : re_compile s <> Raise OutOfFuel.
Proof.
  unfold re_compile. pose proof (toks_fits _ s (Nat.le_refl _)) as T. destruct (toks s) as [ts|e]; cbn [obind]; [|congruence].
  destruct (parser_fits (3 * length ts + 3)) as (H & _). destruct (H ts (Nat.le_refl _)) as [F _]. destruct (p_alt _ ts) as [[a r]|e]; cbn [obind]; [|congruence]. cbn [snd]. destruct r; discriminate.
Qed.
