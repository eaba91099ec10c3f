(** Reading formatted values back. *)
From Coq Require Import String Ascii List NArith ZArith Bool Lia ZifyBool ZifyN ZifyNat.
From Verif Require Import PyBase PyFacts RegexModel RegexFacts FoldModel ScanModel FormatModel ReadModel ParseModel
  FoldSpec FoldProofs FoldProofs2 ScanFacts ScanSpec FormatSpec ScanProofs ScanProofs2 ScanProofs3 TextProofs TextProofs2
  FormatProofs FormatProofs2.
Import ListNotations.
Open Scope nat_scope.

(** ** Lines lost to the hash sign *)
Lemma lines_of_text p : ~ In 13%N p -> exists l0 ls, p = join_lines (l0 :: ls) /\ Forall one_line (l0 :: ls).
Proof.
  intros H13. induction p as [|c p IH].
  - exists [], []. split; [reflexivity|]. repeat constructor; intros [].
  - destruct IH as (l0 & ls & -> & Hls); [intros H; apply H13; now right|].
    apply Forall_cons_iff in Hls. destruct Hls as [Hl0 Hls].
    destruct (N.eq_dec c 10) as [->|N].
    + exists [], (l0 :: ls). split; [reflexivity|]. constructor; [split; intros []|now constructor].
    + exists (c :: l0), ls. split.
      * destruct ls; reflexivity.
      * constructor; [|exact Hls]. destruct Hl0 as [A B]. split; intros [H|H]; try tauto; try congruence; apply H13; left; congruence.
Qed.
Lemma join_cons l ls : ls <> [] -> join_lines (l :: ls) = l ++ 10%N :: join_lines ls.
Proof. destruct ls; [congruence|reflexivity]. Qed.
Lemma lost_hash l0 ls : Forall one_line ls -> kept ls <> ls -> hash_line (join_lines (l0 :: ls)).
Proof.
  revert l0. induction ls as [|l ls IH]; intros l0 Hf Hk; [cbn in Hk; congruence|].
  apply Forall_cons_iff in Hf. destruct Hf as [Hl Hf]. rewrite join_cons by discriminate.
  cbn [kept] in Hk. destruct (lost l ls) eqn:E.
  - unfold lost in E. destruct l as [|c l]; [discriminate|]. destruct ls as [|[|d m] ls]; try discriminate.
    apply N.eqb_eq in E. subst c. exists l0, l, d, (m ++ match ls with [] => [] | _ => 10%N :: join_lines ls end).
    split; [|split].
    + cbn [app]. do 2 f_equal. rewrite join_cons by discriminate. cbn [app]. do 3 f_equal. destruct ls; [now rewrite app_nil_r|reflexivity].
    + intros H. apply (proj1 Hl). now right.
    + intros ->. apply Forall_cons_iff in Hf. destruct Hf as [[H _] _]. apply H. now left.
  - assert (kept ls <> ls) as Hk2 by congruence. destruct (IH l Hf Hk2) as (a & m & c & b & Ha & Hm & Hc).
    exists (l0 ++ 10%N :: a), m, c, b. split; [|tauto]. rewrite Ha, <- app_assoc. reflexivity.
Qed.
Lemma kept_short ls : length (join_lines (kept ls)) <= length (join_lines ls).
Proof.
  induction ls as [|l ls IH]; [cbn; lia|]. cbn [kept]. destruct (lost l ls) eqn:E.
  - destruct ls as [|m ls]; [destruct l; discriminate|]. rewrite join_cons by discriminate. rewrite app_length. cbn [length]. unfold str in *. lia.
  - destruct ls as [|m ls]; [cbn; lia|]. rewrite (join_cons l (m :: ls)) by discriminate.
    destruct (kept (m :: ls)) as [|x k] eqn:Ek.
    + cbn. rewrite app_length. cbn. lia.
    + rewrite join_cons by discriminate. rewrite !app_length. cbn [length]. unfold str in *. lia.
Qed.
Lemma kept_nonempty l ls : kept (l :: ls) <> [].
Proof.
  revert l. induction ls as [|m ls IH]; intros l; cbn [kept].
  - destruct l; cbn; discriminate.
  - destruct (lost l (m :: ls)); [apply IH|discriminate].
Qed.
Lemma hash_shorter l0 ls : kept ls <> ls -> length (join_lines (l0 :: kept ls)) < length (join_lines (l0 :: ls)).
Proof.
  revert l0. induction ls as [|l ls IH]; intros l0 H; [cbn in H; congruence|]. cbn [kept] in H |- *.
  destruct (lost l ls) eqn:E.
  - assert (ls <> []) as Hne by (destruct ls; [destruct l; discriminate|discriminate]).
    assert (kept ls <> []) as Hk by (destruct ls; [congruence|apply kept_nonempty]).
    rewrite !join_cons by (assumption || discriminate). rewrite !app_length. cbn [length].
    pose proof (kept_short ls). rewrite app_length. cbn [length]. unfold str in *. lia.
  - assert (kept ls <> ls) as H2 by congruence. specialize (IH l H2). rewrite !(join_cons l0) by discriminate.
    rewrite !app_length. cbn [length]. unfold str in *. lia.
Qed.
Lemma line_break a b l ls : Forall one_line (l :: ls) -> join_lines (l :: ls) = a ++ 10%N :: b ->
  exists la lb, l :: ls = la ++ lb /\ la <> [] /\ lb <> [] /\ a = join_lines la /\ b = join_lines lb.
Proof.
  revert a l. induction ls as [|m ls IH]; intros a l Hf E.
  - cbn in E. apply Forall_cons_iff in Hf. destruct Hf as [[H _] _]. exfalso. apply H. rewrite E. apply in_or_app. right. now left.
  - rewrite join_cons in E by discriminate. apply Forall_cons_iff in Hf. destruct Hf as [[Hl _] Hf].
    destruct (Nat.lt_trichotomy (length l) (length a)) as [L|[L|L]].
    + assert (exists a', a = l ++ 10%N :: a') as [a' ->].
      { apply (f_equal (firstn (S (length l)))) in E. rewrite firstn_app in E.
        rewrite firstn_all2 in E by lia. replace (S (length l) - length l) with 1 in E by lia.
        rewrite firstn_app in E. replace (S (length l) - length a) with 0 in E by lia. rewrite firstn_O, app_nil_r in E.
        exists (skipn (S (length l)) a). rewrite <- (firstn_skipn (S (length l)) a) at 1. rewrite <- E. cbn [firstn]. now rewrite <- app_assoc. }
      rewrite <- app_assoc in E. apply app_inv_head in E. injection E as E.
      destruct (IH a' m Hf E) as (la & lb & E1 & H1 & H2 & -> & ->).
      exists (l :: la), lb. rewrite E1. split; [reflexivity|]. split; [discriminate|]. split; [exact H2|]. split; [|reflexivity].
      now rewrite join_cons.
    + assert (l = a /\ 10%N :: join_lines (m :: ls) = 10%N :: b) as [-> E2]; [|injection E2 as <-].
      { clear - E L. revert a E L. induction l as [|x l IH]; intros [|y a] E L; cbn in *; try lia; [tauto|]. injection E as -> E.
        destruct (IH a E ltac:(lia)) as [-> H]. auto. }
      exists [a], (m :: ls). split; [reflexivity|]. split; [discriminate|]. split; [discriminate|]. split; reflexivity.
    + exfalso. apply Hl. assert (nth_error (l ++ 10%N :: join_lines (m :: ls)) (length a) = Some 10%N) as H
        by (rewrite E, nth_error_app2, Nat.sub_diag by lia; reflexivity).
      rewrite nth_error_app1 in H by lia. eapply nth_error_In; eauto.
Qed.
Lemma hash_lost l0 ls : Forall one_line (l0 :: ls) -> hash_line (join_lines (l0 :: ls)) -> kept ls <> ls.
Proof.
  intros Hf (a & l & c & b & E & Hl & Hc). cbn [app] in E.
  destruct (line_break a (35%N :: l ++ 10%N :: c :: b) l0 ls Hf E) as (la & lb & E1 & Ha & Hb & -> & E2).
  rewrite E1 in Hf. apply Forall_app in Hf. destruct Hf as [_ Hf]. destruct lb as [|x lb]; [congruence|].
  symmetry in E2. change (35%N :: l ++ 10%N :: c :: b) with ((35%N :: l) ++ 10%N :: c :: b) in E2.
  assert (x = 35%N :: l /\ exists y lc, lb = (c :: y) :: lc) as [-> (y & lc & ->)].
  { destruct (line_break _ _ _ _ Hf E2) as (lx & ly & E3 & Hx & Hy & E4 & E5).
    destruct lx as [|x' lx]; [congruence|]. injection E3 as <- E3.
    assert (lx = []) as ->.
    { destruct lx as [|z lx]; [reflexivity|]. exfalso. rewrite join_cons in E4 by discriminate.
      assert (In 10%N (35%N :: l)) as H by (rewrite E4; apply in_or_app; right; now left).
      destruct H as [H|H]; [discriminate|tauto]. }
    cbn in E4. split; [now symmetry|]. cbn [app] in E3. rewrite E3. destruct ly as [|z ly]; [congruence|].
    destruct ly as [|z2 ly].
    - cbn in E5. exists b, []. now rewrite E5.
    - rewrite join_cons in E5 by discriminate. destruct z as [|c' z]; [cbn in E5; injection E5 as E5 _; congruence|].
      cbn in E5. injection E5 as -> E5. exists z, (z2 :: ly). reflexivity. }
  intros K. destruct la as [|l0' la]; [congruence|]. cbn in E1. injection E1 as -> E1. rewrite E1 in K.
  clear - K. assert (length (kept (la ++ (35%N :: l) :: (c :: y) :: lc)) < length (la ++ (35%N :: l) :: (c :: y) :: lc)) as L.
  { assert (forall zs, length (kept zs) <= length zs) as KL.
    { induction zs as [|z zs IH]; [cbn; lia|]. cbn [kept]. destruct (lost z zs); cbn [length]; lia. }
    clear K. induction la as [|z la IH].
    - cbn [app]. change (kept ((35%N :: l) :: (c :: y) :: lc)) with (kept ((c :: y) :: lc)). pose proof (KL ((c :: y) :: lc)).
      unfold str in *. cbn [length] in *. lia.
    - cbn [app kept]. destruct (lost z _); unfold str in *; cbn [length]; lia. }
  apply (f_equal (@length _)) in K. unfold str in *. lia.
Qed.

(** ** Text fields *)
Lemma first_line_semi l0 ls : no_terminator (join_lines (l0 :: ls)) -> Forall (fun l => first_is 59 l = false) ls.
Proof.
  intros H. revert l0 H. induction ls as [|l ls IH]; intros l0 H; [constructor|].
  rewrite join_cons in H by discriminate. constructor.
  - destruct l as [|c l]; [reflexivity|]. cbn. apply N.eqb_neq. intros ->. destruct ls as [|l1 ls].
    + apply (H l0 l). reflexivity.
    + apply (H l0 (l ++ 10%N :: join_lines (l1 :: ls))). reflexivity.
  - apply (IH l). intros a z E. apply (H (l0 ++ 10%N :: a) z). rewrite E, <- app_assoc. reflexivity.
Qed.
Lemma field_exact g p tail : ~ In CR p -> no_terminator p ->
  exists l0 ls, p = join_lines (l0 :: ls) /\ Forall one_line (l0 :: ls) /\
  read_field g ([NL; SC] ++ p ++ [NL; SC] ++ tail) ([NL; SC] ++ join_lines (l0 :: kept ls) ++ [NL; SC]) tail
  /\ (hash_line p <-> kept ls <> ls).
Proof.
  intros Hc Hn. destruct (lines_of_text p Hc) as (l0 & ls & -> & Hls). exists l0, ls. split; [reflexivity|]. split; [exact Hls|]. split.
  - apply field_by_lines; [exact Hls|]. eapply first_line_semi; eauto.
  - split; [now apply hash_lost|]. intros H. apply lost_hash; [|exact H]. now apply Forall_cons_iff in Hls.
Qed.
Lemma field_kept g p tail : ~ In CR p -> no_terminator p -> ~ hash_line p ->
  read_field g ([NL; SC] ++ p ++ [NL; SC] ++ tail) ([NL; SC] ++ p ++ [NL; SC]) tail.
Proof.
  intros H1 H2 H3. destruct (field_exact g p tail H1 H2) as (l0 & ls & -> & _ & H & Hk).
  assert (kept ls = ls) as E; [|now rewrite E in H].
  destruct (list_eq_dec (list_eq_dec N.eq_dec) (kept ls) ls) as [E|E]; [exact E|]. tauto.
Qed.

(** ** Values *)
Definition read_value (g : grammar) (in_loop : bool) (inp : str) (v : value) (t : str) : Prop :=
  exists tk m rest, In tk (value_tokens g)
  /\ (forall restrict, value_place g in_loop restrict -> scan g restrict inp = Ret (tk, m, rest))
  /\ (forall restrict fuel, (forall x, In x (value_tokens g) -> In x restrict) ->
        value_go (S fuel) g (PS rest (Some (tk, m, restrict))) = Ret (v, PS t None)).

Lemma scan_go_more g ts s x : forall k f, scan_go f g ts s = Ret x -> f <= k -> scan_go k g ts s = Ret x.
Proof.
  intros k f. revert k s. induction f as [|f IH]; intros k s H L.
  - destruct k; cbn [scan_go] in *; destruct (best_match g ts s None) as [[[t m] r]|]; try discriminate; destruct (ignored t); congruence.
  - destruct k; [lia|]. cbn [scan_go] in *. destruct (best_match g ts s None) as [[[t m] r]|]; [|discriminate].
    destruct (ignored t); [apply IH; [exact H|lia]|exact H].
Qed.
Lemma value_first_tokens g : value_first g = value_tokens g.
Proof. now destruct g. Qed.
Lemma value_first_place g b : value_place g b (value_first g).
Proof.
  rewrite value_first_tokens. split; [split; tauto|]. intros H. destruct g; cbn in H; intuition discriminate.
Qed.
Lemma read_value_fresh g b inp v t fuel : read_value g b inp v t -> value_go (S fuel) g (PS inp None) = Ret (v, PS t None).
Proof.
  intros (tk & m & rest & Ht & Hs & Hv). specialize (Hv (value_first g) fuel ltac:(intros x Hx; now rewrite value_first_tokens)).
  rewrite <- Hv. cbn [value_go]. rewrite (peek_fresh _ _ _ tk m rest) by (apply Hs, value_first_place). rewrite peek_pend; [reflexivity| |tauto].
  destruct g; discriminate.
Qed.
Lemma place_no_scline g b restrict : value_place g b restrict -> restrict <> [] /\ ~ In ScLine restrict.
Proof. intros [H _]. split; [eapply context_nonempty; eauto|eapply context_no_scline; eauto]. Qed.
Lemma read_value_blanks g b w inp v t : Forall skippable w -> first_is 59 inp = false ->
  read_value g b inp v t -> read_value g b (w ++ inp) v t.
Proof.
  intros Hw H59 (tk & m & rest & Ht & Hs & Hv). exists tk, m, rest. split; [exact Ht|]. split; [|exact Hv].
  intros restrict Hp. destruct (place_no_scline _ _ _ Hp). rewrite scan_blanks by assumption. now apply Hs.
Qed.
Lemma peek_value g restrict tk m rest : In tk (value_tokens g) -> (forall x, In x (value_tokens g) -> In x restrict) ->
  peek g (value_first g) (PS rest (Some (tk, m, restrict))) = Ret (tk, PS rest (Some (tk, m, restrict))).
Proof. intros _ H. apply peek_pend; [destruct g; discriminate|]. rewrite value_first_tokens. exact H. Qed.
Lemma in_nonempty {A} (x : A) l : In x l -> l <> [].
Proof. intros H ->. destruct H. Qed.

Lemma read_plain g b s t : s <> [] -> plain_first g (hd 0%N s) = true -> Forall (fun d => plain_next g d = true) (tl s) -> follows g t ->
  reserved_start s = false -> (b = true -> lower s <> u "loop_") -> stripstring s = s ->
  read_value g b (s ++ t) (VStr s) t.
Proof.
  intros Hne H1 H2 H3 H4 H5 H6. destruct s as [|c s]; [congruence|]. cbn [hd tl] in *.
  exists Value1, (c :: s), t. split; [destruct g; cbn; tauto|]. split.
  - intros restrict [Hc Hl]. cbn [app]. apply scan_first; [|reflexivity]. apply plain_best; auto.
  - intros restrict fuel Hr. cbn [value_go]. rewrite peek_value by (try exact Hr; destruct g; cbn; tauto). cbn [obind].
    assert (In Value1 restrict) by (apply Hr; destruct g; cbn; tauto).
    rewrite take_pend; [|assumption|eapply in_nonempty; eauto]. cbn [obind fst snd]. rewrite H6. destruct g; reflexivity.
Qed.
Lemma last_is_snoc q s : last_is q (s ++ [q]) = true.
Proof. unfold last_is. rewrite rev_app_distr. cbn. apply N.eqb_refl. Qed.
Lemma stripstring_quoted q s : q = sq \/ q = dq -> stripstring (q :: s ++ [q]) = s.
Proof.
  intros Hq. assert (py_slice 1 (length (q :: s ++ [q]) - 1) (q :: s ++ [q]) = s) as E.
  { unfold py_slice. cbn [skipn length]. rewrite app_length. cbn [length]. replace (S (length s + 1) - 1 - 1) with (length s) by lia. apply firstn_exact. }
  unfold stripstring. assert (forall k, last_is k (q :: s ++ [q]) = (q =? k)%N) as L.
  { intros k. unfold last_is. change (q :: s ++ [q]) with ((q :: s) ++ [q]). rewrite rev_app_distr. reflexivity. }
  rewrite !L. cbn [first_is]. destruct Hq as [->| ->]; cbn [N.eqb sq dq Pos.eqb andb]; exact E.
Qed.
Lemma striptriple_quoted q s : q = sq \/ q = dq -> striptriple ([q; q; q] ++ s ++ [q; q; q]) = s.
Proof.
  intros Hq. assert (py_slice 3 (length ([q; q; q] ++ s ++ [q; q; q]) - 3) ([q; q; q] ++ s ++ [q; q; q]) = s) as E.
  { unfold py_slice. cbn [skipn length app]. rewrite app_length. cbn [length].
    replace (S (S (S (length s + 3))) - 3 - 3) with (length s) by lia. apply firstn_exact. }
  unfold striptriple. rewrite E. unfold ends_with.
  assert (rev ([q; q; q] ++ s ++ [q; q; q]) = [q; q; q] ++ rev s ++ [q; q; q]) as R.
  { rewrite !rev_app_distr. change (rev [q; q; q]) with [q; q; q]. now rewrite <- app_assoc. }
  rewrite R. destruct Hq as [->| ->]; reflexivity.
Qed.
Lemma quoted_excl q s : q = QS \/ q = QD -> ~ In NL s -> ~ In q s -> ~ In CR s -> (q = QS -> ~ In FF s) -> Forall (fun c => ~ In c (excl q)) s.
Proof.
  intros Hq H1 H2 H3 H4. apply Forall_forall. intros c Hc Hx. unfold excl in Hx.
  destruct Hq as [->| ->]; cbn in Hx; repeat (destruct Hx as [<-|Hx]; [tauto|]); destruct Hx.
Qed.
Lemma read_quoted g b q s t : q = QS \/ q = QD -> Forall (fun c => ~ In c (excl q)) s -> closes g t ->
  read_value g b ([q] ++ s ++ [q] ++ t) (VStr s) t.
Proof.
  intros Hq Hs Ht. assert (q = sq \/ q = dq) as Hq' by exact Hq.
  destruct (match g with G10 | G11 => true | _ => false end) eqn:Eg.
  - assert (g = G10 \/ g = G11) as Hg by (destruct g; try discriminate; auto).
    exists Value1, (q :: s ++ [q]), t. split; [destruct g; cbn; tauto|]. split.
    + intros restrict [Hc _]. cbn [app]. apply scan_first; [|reflexivity]. apply quoted1_best; try assumption.
      destruct t as [|c t]; [exact I|]. destruct Ht as [Ht|[[Ht _]|[Ht _]]]; [exact Ht|subst; discriminate|subst; discriminate].
    + intros restrict fuel Hr. cbn [value_go]. rewrite peek_value by (try exact Hr; destruct g; cbn; tauto). cbn [obind].
      assert (In Value1 restrict) by (apply Hr; destruct g; cbn; tauto).
      rewrite take_pend; [|assumption|eapply in_nonempty; eauto]. cbn [obind fst snd].
      destruct g; try discriminate; now rewrite stripstring_quoted by exact Hq'.
  - assert (g = G20 \/ g = GS2) as Hg by (destruct g; try discriminate; auto).
    exists SingleQ, (q :: s ++ [q]), t. split; [destruct g; cbn; tauto || discriminate|]. split.
    + intros restrict [Hc _]. cbn [app]. apply scan_first; [|reflexivity]. apply quoted2_best; try assumption; [now left|].
      destruct t as [|c t]; [reflexivity|]. cbn. apply N.eqb_neq. intros ->. cbn in Ht.
      destruct Hq as [->| ->]; cbn in Ht; intuition discriminate.
    + intros restrict fuel Hr. cbn [value_go]. rewrite peek_value by (try exact Hr; destruct g; cbn; tauto || discriminate). cbn [obind].
      assert (In SingleQ restrict /\ In TripleQ restrict) as [Hi1 Hi2] by (split; apply Hr; destruct g; cbn; tauto || discriminate).
      unfold delimited. rewrite peek_pend; [|discriminate|intros x [<-|[<-|[]]]; assumption]. cbn [obind].
      change (tok_eqb SingleQ TripleQ) with false. change (tok_eqb SingleQ SingleQ) with true. cbn iota.
      rewrite take_pend; [|assumption|eapply in_nonempty; eauto]. cbn [obind fst snd].
      now rewrite stripstring_quoted by exact Hq'.
Qed.
Lemma read_triple g b q s t : has_triples g -> q = QS \/ q = QD -> triple_ok q s -> closes g t ->
  read_value g b ([q; q; q] ++ s ++ [q; q; q] ++ t) (VStr s) t.
Proof.
  intros Hg Hq [Hs1 Hs2] Ht. assert (q = sq \/ q = dq) as Hq' by exact Hq.
  exists TripleQ, ([q; q; q] ++ s ++ [q; q; q]), t. split; [destruct Hg as [->| ->]; cbn; tauto|]. split.
  - intros restrict [Hc _]. apply scan_first; [|reflexivity]. apply triple_best; try assumption; [now left| |].
    + split; [|exact Hs2]. intros x y E. apply Hs1. exists x, y. exact E.
    + destruct t as [|c t]; [reflexivity|]. cbn. apply N.eqb_neq. intros ->. cbn in Ht.
      destruct Hq as [->| ->]; cbn in Ht; intuition discriminate.
  - intros restrict fuel Hr. cbn [value_go]. rewrite peek_value by (try exact Hr; destruct Hg as [->| ->]; cbn; tauto). cbn [obind].
    assert (In SingleQ restrict /\ In TripleQ restrict) as [Hi1 Hi2] by (split; apply Hr; destruct Hg as [->| ->]; cbn; tauto).
    unfold delimited. rewrite peek_pend; [|discriminate|intros x [<-|[<-|[]]]; assumption]. cbn [obind].
    change (tok_eqb TripleQ TripleQ) with true. cbn iota.
    rewrite take_pend; [|assumption|eapply in_nonempty; eauto]. cbn [obind fst snd].
    now rewrite striptriple_quoted by exact Hq'.
Qed.
Lemma read_field_value g b inp x t : read_field g inp x t -> read_value g b inp (VStr (stripextras x)) t.
Proof.
  intros (m & rest & H1 & H2). exists StartSc, m, rest. split; [destruct g; cbn; tauto|]. split.
  - intros restrict [Hc _]. apply H1. now left.
  - intros restrict fuel Hr. cbn [value_go]. rewrite peek_value by (try exact Hr; destruct g; cbn; tauto). cbn [obind].
    rewrite H2 by (apply Hr; destruct g; cbn; tauto). reflexivity.
Qed.

(** ** The main lemma *)
Lemma closes_follows g t : closes g t -> follows g t.
Proof.
  destruct t as [|c t]; [easy|]. cbn [closes follows]. unfold plain_next, ns. intros [H|[[-> H]|[-> H]]].
  - now rewrite H.
  - cbn in H. repeat (destruct H as [<-|H]; [reflexivity|]). destruct H.
  - cbn in H. repeat (destruct H as [<-|H]; [reflexivity|]). destruct H.
Qed.
Lemma stripstring_unquoted s : ~ In sq s -> ~ In dq s -> stripstring s = s.
Proof.
  intros H1 H2. unfold stripstring. destruct s as [|c s]; [reflexivity|]. cbn [first_is].
  destruct (N.eqb_spec c sq) as [->|_]; [exfalso; apply H1; now left|].
  destruct (N.eqb_spec c dq) as [->|_]; [exfalso; apply H2; now left|]. reflexivity.
Qed.
Lemma starts_ci_tail w x s : starts_ci (w ++ x) s -> starts_ci w s.
Proof.
  intros (a & b & -> & E). exists (firstn (length w) a), (skipn (length w) a ++ b). split; [now rewrite app_assoc, firstn_skipn|].
  unfold lower in *. rewrite <- firstn_map, E. apply firstn_exact.
Qed.
