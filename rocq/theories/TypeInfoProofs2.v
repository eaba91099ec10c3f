(** Sets of characters: what is compiled of the mended text. *)
From Coq Require Import String Ascii List NArith PeanoNat Bool Lia.
From Verif Require Import PyBase PyFacts StarBlockModel RegexModel RegexSpec TypeInfoModel TypeInfoSpec TypeInfoProofs.
Import ListNotations.
Open Scope nat_scope.

(** ** Reading a set *)
Definition item_toks (i : sitem) : list tok :=
  match i with SChr c => [(false, c)] | SEsc c => [(true, c)] | SRange lo hi => [(false, lo); (false, 45%N); (false, hi)] end.
Definition esc_val (c x : N) : Prop := tok_code (true, c) = Ret x.
Definition good_first (i : sitem) : Prop :=
  match i with
  | SChr c => c <> 92 /\ c <> 45 /\ c <> 10
  | SEsc c => c <> 10 /\ exists x, esc_val c x
  | SRange lo hi => lo <> 92 /\ lo <> 45 /\ lo <> 10 /\ lo <> 93 /\ hi <> 92 /\ hi <> 93 /\ hi <> 10 /\ lo <= hi
  end%N.
Definition good (i : sitem) : Prop := good_first i /\ i <> SChr 93%N.
Definition item_holds (i : sitem) (x : N) : Prop :=
  match i with SChr c => x = c | SEsc c => esc_val c x | SRange lo hi => (lo <= x <= hi)%N end.
Definition tail_toks (h : bool) (r : list tok) : list tok := (if h then [(false, 45%N)] else []) ++ (false, 93%N) :: r.

Lemma toks_item i s l : good_first i -> toks s = Ret l -> toks (sitem_text i ++ s) = Ret (item_toks i ++ l).
Proof.
  intros G E. destruct i as [c|c|lo hi]; cbn [sitem_text app item_toks good_first] in *.
  - cbn [toks]. replace (c =? 92)%N with false by (symmetry; apply N.eqb_neq; tauto). now rewrite E.
  - cbn [toks]. change (92 =? 92)%N with true. now rewrite E.
  - cbn [toks]. replace (lo =? 92)%N with false by (symmetry; apply N.eqb_neq; tauto). replace (hi =? 92)%N with false by (symmetry; apply N.eqb_neq; tauto).
    change (45 =? 92)%N with false. now rewrite E.
Qed.
Lemma toks_items l s t : Forall good_first l -> toks s = Ret t -> toks (flat_map sitem_text l ++ s) = Ret (flat_map item_toks l ++ t).
Proof. induction 1 as [|i l G _ IH]; intros E; [exact E|]. cbn [flat_map]. rewrite <- !app_assoc. apply toks_item; auto. Qed.
Lemma good_firsts l : Forall good l -> Forall good_first l.
Proof. apply Forall_impl. now intros i [G _]. Qed.
Lemma in_items_cons lo hi l x : in_items ((lo, hi) :: l) x = true <-> (lo <= x <= hi)%N \/ in_items l x = true.
Proof. unfold in_items. cbn [existsb fst snd]. rewrite orb_true_iff, andb_true_iff, !N.leb_le. reflexivity. Qed.
(** What follows an item does not begin with a hyphen, unless it is the last. *)
Lemma next_tok l h r : Forall good l -> match flat_map item_toks l ++ tail_toks h r with
  | t :: _ => is_tok 45 t = match l with [] => h | _ => false end | [] => False end.
Proof.
  intros G. destruct l as [|i l]; [now destruct h|]. inversion G as [|? ? [Gi _] _]; subst. destruct i; cbn [flat_map item_toks app is_tok fst snd negb andb] in *; try reflexivity; cbn [good_first] in Gi; apply N.eqb_neq; tauto.
Qed.
Lemma set_items_ok h r : forall (l : list sitem) (first : bool), Forall good (if first then tl l else l) -> match l with [] => first = false | i :: _ => good_first i end ->
  exists rs, set_items first (flat_map item_toks l ++ tail_toks h r) = Ret (rs, r) /\
    forall x, in_items rs x = true <-> (exists i, In i l /\ item_holds i x) \/ (h = true /\ x = 45%N).
Proof.
  induction l as [|i l IH]; intros first G H.
  - subst first. destruct h; cbn [flat_map app tail_toks].
    + exists [(45, 45)%N]. split; [reflexivity|]. intros x. rewrite in_items_cons. cbn. split.
      * intros [L|L]; [|discriminate L]. right. split; [reflexivity|lia].
      * intros [(i & [] & _)|[_ ->]]. left. lia.
    + exists []. split; [reflexivity|]. intros x. cbn. split; [discriminate|]. intros [(i & [] & _)|[E _]]; discriminate E.
  - assert (Forall good l) as Gl by (destruct first; [exact G|now inversion G]).
    assert (first = false -> i <> SChr 93%N) as Hi by (intros ->; inversion G as [|? ? [_ K] _]; exact K).
    destruct (IH false Gl) as (rs & E & R); [destruct l; [reflexivity|now inversion Gl as [|? ? [K _] _]]|]. pose proof (next_tok l h r Gl) as Nx.
    assert (forall t lo, item_toks i = [t] -> tok_code t = Ret lo -> is_tok 93 t && negb first = false -> (forall x, item_holds i x <-> (lo <= x <= lo)%N) ->
      exists rs, set_items first (flat_map item_toks (i :: l) ++ tail_toks h r) = Ret (rs, r) /\
        forall x, in_items rs x = true <-> (exists j, In j (i :: l) /\ item_holds j x) \/ (h = true /\ x = 45%N)) as One.
    { intros t lo Et Ec Ef Hh. cbn [flat_map]. rewrite Et. cbn [app]. cbn [set_items]. rewrite Ef, Ec. cbn [obind].
      destruct (flat_map item_toks l ++ tail_toks h r) as [|k r2] eqn:Ek; [destruct Nx|]. rewrite Nx. destruct l as [|j l].
      - destruct h.
        + cbn [flat_map app tail_toks] in Ek. injection Ek as _ <-. change (is_tok 93 (false, 93%N)) with true. cbn iota. exists [(lo, lo); (45, 45)%N]. split; [reflexivity|]. intros x. rewrite !in_items_cons. split.
          * intros [L|[L|L]]; [left; exists i; split; [now left|now apply Hh]|right; split; [reflexivity|lia]|discriminate L].
          * intros [(j & [<-|[]] & L)|[_ ->]]; [left; now apply Hh|right; left; lia].
        + rewrite E. cbn [obind fst snd]. exists ((lo, lo) :: rs). split; [reflexivity|]. intros x. rewrite in_items_cons, R. split.
          * intros [L|[(j & [] & _)|[K _]]]; [left; exists i; split; [now left|now apply Hh]|discriminate K].
          * intros [(j & [<-|[]] & L)|[K _]]; [left; now apply Hh|discriminate K].
      - rewrite E. cbn [obind fst snd]. exists ((lo, lo) :: rs). split; [reflexivity|]. intros x. rewrite in_items_cons, R. split.
        * intros [L|[(k' & I & L)|L]]; [left; exists i; split; [now left|now apply Hh]|left; exists k'; split; [now right|exact L]|now right].
        * intros [(k' & [<-|I] & L)|L]; [left; now apply Hh|right; left; now exists k'|now right; right]. }
    destruct i as [c|c|lo hi].
    + apply (One (false, c) c); try reflexivity; [|cbn [item_holds]; intros; lia]. unfold is_tok. cbn [fst snd negb andb]. destruct first; [apply andb_false_r|]. rewrite andb_true_r. apply N.eqb_neq. intros ->. now apply Hi.
    + destruct H as (_ & x & Hx). apply (One (true, c) x); try reflexivity; [exact Hx|]. cbn [item_holds]. unfold esc_val in *. intros y. rewrite Hx. split; [intros [= ->]; lia|]. intros L. f_equal. lia.
    + cbn [good_first] in H. destruct H as (L1 & L2 & _ & L3 & H1 & H2 & _ & L). cbn [flat_map item_toks app]. cbn [set_items].
      replace (is_tok 93 (false, lo)) with false by (symmetry; apply N.eqb_neq; exact L3). cbn [andb tok_code obind]. change (is_tok 45 (false, 45%N)) with true. cbn iota.
      replace (is_tok 93 (false, hi)) with false by (symmetry; apply N.eqb_neq; exact H2). replace (hi <? lo)%N with false by (symmetry; apply N.ltb_ge; exact L).
      rewrite E. cbn [obind fst snd]. exists ((lo, hi) :: rs). split; [reflexivity|]. intros x. rewrite in_items_cons, R. split.
      * intros [K|[(j & I & K)|K]]; [left; exists (SRange lo hi); split; [now left|exact K]|left; exists j; split; [now right|exact K]|now right].
      * intros [(j & [<-|I] & K)|K]; [left; exact K|right; left; now exists j|now right; right].
Qed.

(** ** A set, repeated *)
Definition all_items (b : bool) (l : list sitem) : list sitem := (if b then [SChr 93%N] else []) ++ l.
Lemma set_text_items b l h : set_text b l h = 91%N :: flat_map sitem_text (all_items b l) ++ (if h then [45%N] else []) ++ [93%N].
Proof. unfold set_text, all_items. now destruct b, h. Qed.
Definition not_caret (i : sitem) : Prop := match i with SChr c => c <> 94%N | SRange c _ => c <> 94%N | SEsc _ => True end.
Theorem compile_set b l h : Forall good l -> match all_items b l with [] => False | i :: _ => not_caret i end ->
  exists p, re_compile (set_text b l h ++ u "*$") = Ret (RSeq (RStar (RChr p)) REol) /\
    forall x, p x = true <-> (exists i, In i (all_items b l) /\ item_holds i x) \/ (h = true /\ x = 45%N).
Proof.
  intros G C. assert (Forall good_first (all_items b l)) as Gf.
  { apply Forall_app. split; [|now apply good_firsts]. destruct b; repeat constructor; discriminate. }
  assert (toks (set_text b l h ++ u "*$") = Ret ((false, 91%N) :: flat_map item_toks (all_items b l) ++ tail_toks h [(false, 42%N); (false, 36%N)])) as T.
  { rewrite set_text_items. cbn [app toks]. change (91 =? 92)%N with false. cbn iota. rewrite <- !app_assoc.
    rewrite (toks_items _ _ (tail_toks h [(false, 42%N); (false, 36%N)]) Gf); [reflexivity|]. now destruct h. }
  destruct (set_items_ok h [(false, 42%N); (false, 36%N)] (all_items b l) true) as (rs & E & R).
  { unfold all_items. destruct b; cbn [app tl]; [exact G|]. destruct l; [constructor|now inversion G]. }
  { destruct (all_items b l); [destruct C|now inversion Gf]. }
  exists (in_items rs). split; [|exact R]. unfold re_compile. rewrite T. cbn [obind].
  set (ts := flat_map item_toks (all_items b l) ++ tail_toks h [(false, 42%N); (false, 36%N)]) in *. cbn [length].
  replace (3 * S (length ts) + 3) with (S (S (S (S (3 * length ts + 2))))) by lia. cbn [p_alt p_seq p_atom].
  change (is_tok 124 (false, 91%N) || is_tok 41 (false, 91%N)) with false. change (is_tok 36 (false, 91%N)) with false. change (is_tok 91 (false, 91%N)) with true. cbn iota.
  assert (p_set ts = Ret (RChr (in_items rs), [(false, 42%N); (false, 36%N)])) as ->.
  { unfold p_set. destruct ts as [|t r] eqn:Et.
    - unfold tail_toks in Et. subst ts. apply app_eq_nil in Et as [_ Et]. apply app_eq_nil in Et as [_ Et]. discriminate Et.
    - replace (is_tok 94 t) with false; [rewrite E; reflexivity|]. subst ts. destruct (all_items b l) as [|i l']; [destruct C|]. cbn [flat_map] in Et.
      destruct i; cbn [item_toks app not_caret] in *; injection Et as <- _; unfold is_tok; cbn [fst snd negb andb]; symmetry; [now apply N.eqb_neq|reflexivity|now apply N.eqb_neq]. }
  reflexivity.
Qed.
