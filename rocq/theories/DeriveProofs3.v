(** What derivations leave alone. *)
From Coq Require Import String Ascii List NArith ZArith Bool PeanoNat Lia Permutation.
From Verif Require Import PyBase PyFacts StarBlockModel StarBlockSpec StarBlockProofs StarBlockProofs2 StarBlockProofs3 StarBlockProofs4 LoopModel ValidateModel TreeModel DeriveModel DeriveSpec.
Import ListNotations.

Section Keeps.
Variables (d : ddict) (I : block -> Prop) (free : str -> Prop).
Definition defined (k : str) : Prop := dmem str_eqb (lower k) (dd_defs d) = true.
Hypothesis I_add : forall k v b, I b -> free k -> defined k -> I (fst (add_item k v false b)).
Hypothesis I_loopname : forall n k b, I b -> free k -> I (fst (add_loop_name n k b)).
Hypothesis I_create : forall k b, I b -> free k -> I (fst (create_loop [k] (-1) true b)).
Hypothesis I_order : forall k b, I b -> I (fst (change_item_order (ON k) 0 b)).
Hypothesis I_absent : forall k b, I b -> has_key k b = false -> free k.
Hypothesis I_remove : forall k b raw f, I b -> get_full k b = Ret (raw, f) -> unknown raw = true -> to_calculate raw = true -> I (fst (remove_item k b)) /\ free k.
Hypothesis I_cat : forall k k' t, category_of d k' = Ret k -> def_of d k = Ret t -> is_item_def t = true -> free k.

Definition safe {A} (m : act A) : Prop := forall b, I b -> I (fst (m b)).
Lemma safe_ret {A} (a : A) : safe (ret a).
Proof. intros b H. exact H. Qed.
Lemma safe_err {A} x : safe (err (A:=A) x).
Proof. intros b H. exact H. Qed.
Lemma safe_lift {A} (o : outcome A) : safe (lift o).
Proof. intros b H. unfold lift. destruct o; exact H. Qed.
Lemma safe_look {A} (f : block -> A) : safe (look f).
Proof. intros b H. exact H. Qed.
Lemma safe_change f : (forall b, I b -> I (fst (f b))) -> safe (change f).
Proof. intros F b H. unfold change. specialize (F b H). destruct (f b) as [b1 []]; exact F. Qed.
Lemma safe_bind {A B} (m : act A) (f : A -> act B) : safe m -> (forall a, safe (f a)) -> safe (bind m f).
Proof. intros H F b P. unfold bind. specialize (H b P). destruct (m b) as [b1 [a|x]]; [now apply F|exact H]. Qed.
Lemma safe_lift_bind {A B} (o : outcome A) (f : A -> act B) : (forall a, o = Ret a -> safe (f a)) -> safe (bind (lift o) f).
Proof. intros H. destruct o as [a|e]; [intros b P; now apply (H a)|intros b P; exact P]. Qed.
Lemma safe_look_bind {A B} (g : block -> A) (f : A -> act B) : (forall b, I b -> I (fst (f (g b) b))) -> safe (bind (look g) f).
Proof. intros H b P. now apply H. Qed.

Lemma def_defined k t : def_of d k = Ret t -> defined k.
Proof. unfold def_of, defined, dmem. destruct (dget _ _ _); [reflexivity|discriminate]. Qed.
Lemma cat_defined k c : category_of d k = Ret c -> defined k.
Proof. unfold category_of. destruct (def_of d k) eqn:E; [|discriminate]. intros _. now apply def_defined in E. Qed.
Lemma safe_store_looped key v df : free key -> safe (store_looped d key v df).
Proof.
  intros F. unfold store_looped. apply safe_lift_bind. intros cat E. apply cat_defined in E. apply safe_bind.
  { destruct df; [apply safe_ret|]. apply safe_bind; [apply safe_lift|]. intros. apply safe_ret. }
  intros out. apply safe_bind; [apply safe_look|]. intros present. apply safe_bind; [apply safe_change; auto|]. intros _.
  apply safe_bind; [|intros; apply safe_ret]. apply safe_change. intros b H. destruct present; auto.
Qed.
Lemma safe_store_columns cols : (forall n v, In (n, v) cols -> free n) -> safe (store_columns d cols).
Proof.
  induction cols as [|[n v] r IH]; intros F; [apply safe_ret|]. intros b H. cbn [store_columns].
  pose proof (safe_store_looped n v false (F n v (or_introl eq_refl)) b H) as S.
  assert (safe (store_columns d r)) as G by (apply IH; intros m w J; apply (F m w); now right).
  destruct (store_looped d n v false b) as [b1 [w|[[]| | | | | |]]]; cbn [fst] in S; auto.
Qed.
Lemma safe_keys_first l : safe (keys_first l).
Proof. induction l as [|k r IH]; [apply safe_ret|]. cbn [keys_first]. apply safe_bind; [apply safe_change; auto|auto]. Qed.
Definition okname (k : str) : Prop := free k \/ exists k', category_of d k' = Ret k.
Lemma safe_store_cat v cat : safe (store_cat d v cat).
Proof.
  unfold store_cat. destruct v as [?|?| |?|?|cols]; try apply safe_err. apply safe_bind; [apply safe_lift|]. intros keys. apply safe_look_bind. intros b H.
  destruct (existsb (fun n => has_key n b) (map fst cols)) eqn:E.
  - unfold bind, lift, look. destruct (names_in_cat (dd_defs d) cat) as [ns|]; [|exact H]. destruct (same_set _ _); exact H.
  - change (I (fst (bind (store_columns d cols) (fun _ => keys_first keys) b))). refine (safe_bind _ _ _ _ b H); [|intros; apply safe_keys_first].
    apply safe_store_columns. intros n w J. apply (I_absent n b H). destruct (has_key n b) eqn:K; [|reflexivity].
    assert (existsb (fun n => has_key n b) (map fst cols) = true) as X; [|congruence]. apply existsb_exists. exists n. split; [now apply (in_map fst) in J|exact K].
Qed.
Lemma safe_store_result key cat v lp df : okname key -> safe (store_result d key cat v lp df).
Proof.
  intros O. unfold store_result. apply safe_lift_bind. intros t E. destruct (is_item_def t) eqn:T.
  - assert (free key) as F. { destruct O as [F|[k' C]]; [exact F|]. now apply (I_cat key k' t). }
    destruct lp; [now apply safe_store_looped|]. unfold store_unlooped. apply safe_bind; [|intros; apply safe_ret]. apply safe_change. intros b H. apply I_add; auto. now apply def_defined in E.
  - apply safe_bind; [apply safe_store_cat|intros; apply safe_ret].
Qed.
Lemma safe_attempts D st k second : (forall a s, safe (D a s k)) -> (forall r, safe (second r)) -> safe (attempts D st k second).
Proof.
  intros H S b P. unfold attempts. pose proof (H false st b P) as E. destruct (D false st k b) as [b1 [a|[]]]; auto. cbn [fst] in E.
  pose proof (H true st b1 E) as E2. destruct (D true st k b1) as [b2 r]. now apply S.
Qed.
Lemma safe_getitem cache D prov k : (forall a s k, free k -> safe (D a s k)) -> safe (getitem d cache D prov k).
Proof.
  intros H. unfold getitem. destruct (str_eqb k (u "saves")); [apply safe_err|]. intros b P. destruct (get_full k b) as [[raw isv]|e] eqn:G.
  - destruct (negb (dmem _ _ _)); [exact P|]. destruct isv; [exact P|]. destruct (prov && negb (unknown raw)) eqn:X; [now apply safe_lift|]. destruct (prov && to_calculate raw) eqn:Y; [|exact P].
    apply andb_true_iff in Y as [Y1 Y2]. rewrite Y1 in X. cbn [andb] in X. apply negb_false_iff in X. destruct (I_remove k b raw false P G X Y2) as [R F].
    unfold bind, change. destruct (remove_item k b) as [b1 [[]|]]; cbn [fst] in R; [|exact R]. apply safe_attempts; auto. intros [v|[]]; try apply safe_err; apply safe_ret.
  - assert (e = KeyErr \/ e <> KeyErr) as [->|N] by (destruct e; auto; right; discriminate).
    + apply safe_attempts; auto.
      * intros a s. apply H. apply (I_absent k b P). unfold get_full in G. unfold has_key, dmem. destruct (dget str_eqb (lower k) (b_data b)) as [[s0 v0]|]; [|reflexivity]. exfalso. revert G.
        destruct s0; destruct (not_none _); try discriminate; destruct v0 as [?|?| |vl|vl|?]; try discriminate; destruct vl as [|[]]; discriminate.
      * intros [v|[]]; try apply safe_err. apply safe_ret.
    + destruct e; try exact P. contradiction.
Qed.
Lemma safe_run ask p : (forall k, safe (ask k)) -> safe (run d ask p).
Proof.
  intros H. induction p as [v|e|n next IH|n next IH|n next IH]; cbn [run].
  - apply safe_ret.
  - apply safe_err.
  - apply safe_bind; auto.
  - intros b P. destruct (has_key n b); [|now apply IH]. pose proof (H n b P) as E. destruct (ask n b) as [b1 [a|[[]| | | | | |]]]; auto; now apply IH.
  - apply safe_bind; [apply safe_look|auto].
Qed.
Lemma safe_methods ask l : (forall k, safe (ask k)) -> safe (methods d ask l).
Proof.
  intros H. induction l as [|p l IH]; [apply safe_ret|]. intros b P. cbn [methods]. pose proof (safe_run ask p H b P) as E.
  destruct (run d ask p b) as [b1 [[]|[]]]; auto; now apply IH.
Qed.
Lemma safe_under ask k key : safe (ask k) -> safe (under d ask k key).
Proof. intros H. unfold under. apply safe_bind; auto. intros v. apply safe_bind; [apply safe_lift|]. intros. apply safe_ret. Qed.
Lemma safe_resolve ask key : (forall k, safe (ask k)) -> safe (resolve d ask key).
Proof.
  intros H b P. unfold resolve. destruct (filter _ (own_aliases d key)) as [|k l]; [|now apply safe_under].
  destruct (filter _ (alias_table d)) as [|[k' v] [|]]; auto. destruct (has_key k' b); [now apply safe_under|]. destruct (filter _ (names_in v)); [exact P|now apply safe_under].
Qed.
Lemma resolve_name ask key b b1 k : I b -> okname key -> resolve d ask key b = (b1, Ok (inr k)) -> okname k.
Proof.
  intros P O. unfold resolve.
  assert (forall n k0 b b1, under d ask n k0 b = (b1, Ok (inr k)) -> False) as U.
  { intros n k0 x y. unfold under, bind, lift. destruct (ask n x) as [x1 [v|]]; [|discriminate]. destruct (change_type d k0 v); discriminate. }
  destruct (filter _ (own_aliases d key)) as [|n l]; [|intros E; now apply U in E].
  destruct (filter _ (alias_table d)) as [|[k' v] [|]]; [intros [= _ <-]; exact O| |discriminate].
  destruct (has_key k' b) eqn:K; [intros E; now apply U in E|]. destruct (filter _ (names_in v)); [|intros E; now apply U in E]. intros [= _ <-]. left. now apply (I_absent k' b).
Qed.
Lemma safe_default ask key t : (forall k, safe (ask k)) -> safe (default d ask key t).
Proof.
  intros H. unfold default. set (dv := match tget (u "_enumeration.default") t with Some v => v | None => VStr [] end). set (di := match tget (u "_enumeration.def_index_id") t with Some v => v | None => VStr [] end).
  destruct (truthy dv). { apply safe_bind; [apply safe_lift|]. intros. apply safe_ret. } destruct (truthy di); [|apply safe_ret].
  apply safe_bind; [apply safe_lift|]. intros idx. apply safe_bind; [apply safe_lift|]. intros ivs. apply safe_bind; auto. intros v. apply safe_bind; [apply safe_lift|]. intros tc.
  destruct (existsb _ _); [|apply safe_err]. apply safe_bind; [apply safe_lift|]. intros index. destruct v; (apply safe_bind; [apply safe_lift|]; intros; apply safe_ret).
Qed.
Lemma safe_adjust ask cat p v df : (forall k, safe (ask k)) -> safe (adjust d ask cat p v df).
Proof.
  intros H. unfold adjust. apply safe_bind; [apply safe_lift|]. intros ct. destruct (is_loop ct); [|apply safe_ret]. destruct p as [|n p]; [apply safe_ret|]. destruct df; [|apply safe_ret].
  apply safe_bind; auto. intros w. apply safe_bind; [apply safe_lift|]. intros. apply safe_ret.
Qed.
Lemma safe_mapa {X Y} (f : X -> act Y) l : (forall x, safe (f x)) -> safe (mapa f l).
Proof. intros H. induction l as [|x l IH]; [apply safe_ret|]. cbn [mapa]. apply safe_bind; [apply H|]. intros y. apply safe_bind; [exact IH|]. intros. apply safe_ret. Qed.
Lemma safe_caught (m : act value) (X : Type) (f : value -> X) (dflt : X) : safe m ->
  safe (fun b => match m b with (b1, Ok v) => (b1, Ok (f v)) | (b1, Err XDerivation) => (b1, Ok dflt) | (b1, Err x) => (b1, Err x) end).
Proof. intros H b P. specialize (H b P). destruct (m b) as [b1 [v|[]]]; exact H. Qed.
Section Asking.
Variable ask : str -> act value.
Hypothesis H : forall k, safe (ask k).
Lemma safe_copy_rows from to sk kv names : forall last acc, safe (copy_rows d ask from to sk kv names last acc).
Proof.
  induction names as [|n r IH]; intros last acc; [apply safe_ret|]. cbn [copy_rows]. apply safe_bind; [apply safe_lift|]. intros ff. apply safe_bind; [apply safe_lift|]. intros ft.
  apply safe_bind; [apply H|]. intros keys. apply safe_bind; [apply safe_lift|]. intros pos. apply safe_bind; [apply (safe_caught _ _ Some last), H|]. intros data.
  apply safe_bind; [destruct data; [apply safe_lift|destruct pos; [apply safe_ret|apply safe_err]]|]. intros col. apply IH.
Qed.
Lemma safe_copy_all from to names : forall acc, safe (copy_all d ask from to names acc).
Proof.
  induction names as [|n r IH]; intros acc; [apply safe_ret|]. cbn [copy_all]. apply safe_bind; [apply safe_lift|]. intros ff. apply safe_bind; [apply safe_lift|]. intros ft.
  apply safe_bind; [apply (safe_caught _ _ (fun v => dset str_eqb ft v acc) acc), H|]. intros data. apply IH.
Qed.
Lemma safe_duplicate from to kv skip : safe (duplicate d ask from to kv skip).
Proof. unfold duplicate. apply safe_bind; [apply safe_lift|]. intros names. apply safe_bind; [apply safe_lift|]. intros sk. destruct kv; [apply safe_copy_rows|apply safe_copy_all]. Qed.
Lemma safe_sides t pb : safe (sides d ask t pb).
Proof.
  unfold sides. apply safe_bind; [apply safe_lift|]. intros ms. apply safe_bind; [now apply safe_mapa|]. intros mv. apply safe_bind; [apply safe_lift|]. intros cats. apply safe_bind; [apply safe_lift|]. intros keys. apply safe_bind.
  { apply safe_mapa. intros k. apply safe_bind; [apply H|intros; apply safe_lift]. } intros cv. destruct pb; [apply safe_ret|]. apply safe_bind; [apply safe_lift|]. intros mv1. apply safe_bind; [apply safe_lift|]. intros. apply safe_ret.
Qed.
Lemma safe_columns cat t pb cats ids : safe (columns d ask cat t pb cats ids).
Proof.
  unfold columns. apply safe_bind; [apply safe_lift|]. intros ni. apply safe_bind; [apply safe_lift|]. intros full. apply safe_bind; [apply safe_lift|]. intros f0. apply safe_bind; [destruct pb; [apply safe_lift|apply safe_ret]|]. intros r0.
  apply safe_bind; [apply safe_lift|]. intros cat0. apply safe_bind; [apply safe_lift|]. intros k0. apply safe_bind; [apply safe_duplicate|]. intros e0. destruct pb; [|apply safe_ret].
  apply safe_bind; [apply safe_lift|]. intros cat1. apply safe_bind; [apply safe_lift|]. intros k1. apply safe_bind; [apply safe_duplicate|]. intros. apply safe_ret.
Qed.
Lemma safe_construct cat : safe (construct d ask cat).
Proof.
  unfold construct. apply safe_bind; [apply safe_lift|]. intros t. cbv zeta. destruct (_ || _); [|destruct (tget c_type t); [apply safe_err|apply safe_ret]].
  apply safe_bind; [apply safe_sides|]. intros s. apply safe_bind; [apply safe_lift|]. intros ids. destruct ids; [apply safe_ret|].
  apply safe_bind; [apply safe_columns|]. intros r. apply safe_bind; [apply safe_store_cat|]. intros. apply safe_ret.
Qed.
Lemma safe_extend k m r : safe m -> safe (extend k m r).
Proof. intros M. unfold extend. apply safe_bind; [apply safe_lift|]. intros l. apply safe_bind; [exact M|]. intros. apply safe_bind; [apply safe_lift|]. intros. apply safe_ret. Qed.
Lemma safe_extend_known new more : forall r, safe (extend_known new more r).
Proof. induction more as [|[k v] m IH]; intros r; [apply safe_ret|]. cbn [extend_known]. apply safe_bind; [|intros; apply IH]. destruct (dmem str_eqb k r); [apply safe_extend, safe_ret|apply safe_ret]. Qed.
Lemma safe_push_pair target tk sc t cc si ni first r : safe (push_pair d ask target tk sc t cc si ni first r).
Proof.
  unfold push_pair. apply safe_bind; [apply safe_lift|]. intros pos. apply safe_bind; [apply safe_lift|]. intros old. apply safe_bind; [apply safe_extend, H|]. intros r1.
  apply safe_bind; [apply safe_lift|]. intros _. apply safe_bind; [apply safe_duplicate|]. intros extra. destruct first; [apply safe_ret|apply safe_extend_known].
Qed.
Lemma safe_push_bonus s0 t comps r : safe (push_bonus d ask s0 t comps r).
Proof.
  unfold push_bonus. destruct (veq_text _ _); [|apply safe_lift]. apply safe_bind; [apply safe_lift|]. intros f. apply safe_bind; [apply safe_lift|]. intros [|x [|]]; [apply safe_ret| |apply safe_ret].
  apply safe_bind; [apply safe_lift|]. intros name. apply safe_bind; [apply safe_lift|]. intros y. apply safe_bind; [apply H|]. intros w. apply safe_bind; [apply safe_lift|]. intros n. cbv zeta.
  destruct (dmem _ _ _); [apply safe_extend, safe_ret|apply safe_ret].
Qed.
Lemma safe_push_filter target tk sc t comps si ni r : safe (push_filter d ask target tk sc t comps si ni r).
Proof.
  unfold push_filter. apply safe_bind; [apply safe_duplicate|]. intros extra. apply safe_bind. { destruct extra; [|apply safe_ret]. apply safe_bind; [apply safe_lift|]. intros. apply safe_look. } intros []; [|apply safe_ret].
  apply safe_bind; [apply safe_lift|]. intros s0. apply safe_bind; [apply safe_extend, H|]. intros r1. apply safe_bind; [apply safe_extend_known|]. intros r2. apply safe_push_bonus.
Qed.
Lemma safe_push_sources target tk l : forall first r, safe (push_sources d ask target tk l first r).
Proof.
  induction l as [|sc l IH]; intros first r; [apply safe_ret|]. cbn [push_sources]. apply safe_bind; [apply safe_lift|]. intros t. apply safe_bind; [apply safe_lift|]. intros comps. apply safe_bind; [apply safe_lift|]. intros cc.
  apply safe_bind; [apply safe_lift|]. intros ni. apply safe_bind; [apply safe_lift|]. intros si. apply safe_bind; [|intros; apply IH]. destruct (Nat.eqb _ 2); [apply safe_push_pair|apply safe_push_filter].
Qed.
Lemma safe_push target l : safe (push d ask target l).
Proof.
  unfold push. apply safe_bind; [apply safe_lift|]. intros tk. apply safe_bind; [apply safe_push_sources|]. intros r. apply safe_bind.
  - unfold same_lengths. apply safe_bind; [apply safe_lift|]. intros [|n ls]; [apply safe_err|]. destruct (forallb _ ls); [apply safe_ret|apply safe_err].
  - intros _. apply safe_bind; [apply safe_store_cat|]. intros. apply safe_ret.
Qed.
End Asking.
Lemma safe_attempt m : safe m -> safe (attempt m).
Proof. intros H b P. unfold attempt. specialize (H b P). destruct (m b) as [b1 [a|[]]]; exact H. Qed.
Lemma safe_populate ask c cat key : (forall k, safe (ask k)) -> safe (c cat) -> safe (populate d ask c cat key).
Proof.
  intros HA H. unfold populate. apply safe_bind; [apply safe_lift|]. intros sources. apply safe_bind; [apply safe_lift|]. intros t. apply safe_bind. { destruct (tget c_type t); [now apply safe_attempt, safe_construct|apply safe_ret]. }
  intros r1. apply safe_bind. { destruct sources; [apply safe_ret|]. destruct r1; [now apply safe_attempt, safe_push|apply safe_ret]. } intros r2.
  destruct (dd_methods d (lower cat)); [apply safe_ret|]. destruct (dmem str_eqb key r2); [apply safe_ret|]. apply safe_bind; [exact H|]. intros r. destruct r as [?|?| |[|]|[|]|?]; try apply safe_err; apply safe_ret.
Qed.
Lemma safe_body ask c prov st allow k : okname k -> (forall p k, safe (ask p k)) -> (forall k, okname k -> safe (c k)) -> safe (body d ask c prov st allow k).
Proof.
  intros O H HC b P. unfold body. unfold bind at 1. pose proof (safe_resolve (ask prov) k (H prov) b P) as R. pose proof (resolve_name (ask prov) k b) as RN.
  destruct (resolve d (ask prov) k b) as [b1 [[v|key]|x]]; cbn [fst] in R; [exact R| |exact R]. specialize (RN b1 key P O eq_refl). cbv zeta.
  revert b1 R. fold (safe (A:=value)). intros b1 R. refine ((_ : safe _) b1 R). clear b P b1 R. apply safe_lift_bind. intros cat EC. assert (okname cat) as OC by (right; now exists key).
  apply safe_bind; [apply safe_look|]. intros p1. apply safe_bind. { destruct p1; [apply safe_populate; auto|apply safe_ret]. } intros [v|]; [apply safe_ret|].
  apply safe_bind; [apply safe_look|]. intros p2. apply safe_bind; [now apply safe_methods|]. intros v. apply safe_bind.
  { destruct v; try apply safe_ret. destruct allow; [|apply safe_ret]. apply safe_bind; [apply safe_lift|]. intros t. now apply safe_default. }
  intros [w df]. cbn [fst snd].
  assert (safe (bind (adjust d (ask prov) cat p2 w df) (fun wl => if negb (empty_list (fst wl)) && st then store_result d key cat (fst wl) (snd wl) df else ret (fst wl)))) as J.
  { apply safe_bind; [now apply safe_adjust|]. intros wl. destruct (_ && st); [now apply safe_store_result|apply safe_ret]. }
  destruct w; try exact J. apply safe_err.
Qed.
Lemma safe_derive : forall n cache stack stored prov allow st k, okname k -> safe (derive n d cache stack stored prov allow st k).
Proof.
  induction n as [|n IH]; intros cache stack stored prov allow st k O; [apply safe_err|]. cbn [derive]. destruct (mem str_eqb k stack); [apply safe_err|]. cbv zeta. set (al := match stack with [] => allow | _ => stored end).
  intros b P. pose proof (safe_body (fun p => getitem d cache (derive n d cache (stack ++ [k]) al p) p) (fun c => derive n d cache (stack ++ [k]) al prov true true c) prov st al k O
    (fun p x => safe_getitem cache _ p x (fun a s k F => IH _ _ _ _ a s k (or_introl F))) (fun x F => IH _ _ _ _ _ _ x F) b P) as E.
  change (fun prov0 k0 => getitem d cache (fun al0 st0 k1 => derive n d cache (stack ++ [k]) al prov0 al0 st0 k1) prov0 k0) with (fun p => getitem d cache (derive n d cache (stack ++ [k]) al p) p).
  match goal with |- I (fst (match ?X with _ => _ end)) => assert (I (fst X)) as E' by exact E; destruct X as [b1 [a|[]]] end; exact E'.
Qed.
Lemma safe_read n cache prov k : safe (read n d cache prov k).
Proof. unfold read. apply safe_getitem. intros a s x F. apply safe_derive. now left. Qed.
End Keeps.
