(** Loading DDL1 dictionaries: names and ranges. *)
From Coq Require Import String Ascii List NArith ZArith QArith PeanoNat Bool Lia.
From Verif Require Import PyBase PyFacts RegexModel RegexFacts NumberModel NumberSpec NumberProofs NumberProofs2 NumberProofs3 StarBlockModel LoopModel LoopProofs CollectionModel ValidateModel ValidateSpec
  TreeModel EditModel EditProofs EditProofs2 DdlModel DdlSpec.
Import ListNotations.
Open Scope nat_scope.

(** ** Names *)
Lemma fix_plain s : plain_name s -> fix_name true s = s.
Proof.
  intros (A & B & _). unfold fix_name. rewrite <- (map_id s) at 2. apply map_ext_in. intros c Hc.
  destruct (N.eqb_spec c 32) as [->|]; [now elim A|]. destruct (N.eqb_spec c 9) as [->|]; [now elim B|]. reflexivity.
Qed.
Lemma put_ok s e d : plain_name s -> ~ In (lower s) (map fst d) -> d_put (VStr s) e d = Ret (d ++ [(lower s, e)]).
Proof.
  intros P N. unfold d_put. rewrite (fix_plain s P). destruct P as (_ & _ & L). destruct (Nat.ltb_spec 75 (length s)); [lia|]. cbv zeta.
  now rewrite ddel_absent.
Qed.
Lemma put_names_ok t names : forall d, Forall plain_name names -> NoDup (map lower names) -> (forall n, In n names -> ~ In (lower n) (map fst d)) ->
  put_names (map VStr names) t d = Ret (d ++ map (fun n => (lower n, (dset str_eqb n_name (VStr n) t, true))) names).
Proof.
  induction names as [|n r IH]; intros d P D N; cbn [map put_names]; [now rewrite app_nil_r|].
  rewrite put_ok; [|now apply (Forall_inv P)|apply N; now left]. cbn [obind]. cbn [map] in D. apply NoDup_cons_iff in D. destruct D as [D1 D2].
  rewrite IH; [|now apply (Forall_inv_tail P)|exact D2|].
  - rewrite <- app_assoc. reflexivity.
  - intros m Hm. rewrite map_app, in_app_iff. intros [H|[H|[]]]; [apply (N m); [now right|exact H]|]. cbn in H. apply D1. rewrite H. now apply in_map.
Qed.
Lemma ddel_mid {V} k (e : V) a b : ~ In k (map fst a) -> ddel str_eqb k (a ++ (k, e) :: b) = a ++ b.
Proof.
  induction a as [|[x y] a IH]; intros N; cbn [app ddel]; [now rewrite str_eqb_refl|].
  cbn [map fst In] in N. destruct (str_eqb_spec k x) as [->|]; [elim N; now left|]. f_equal. apply IH. intros H. apply N. now right.
Qed.
Lemma del_mid k e a b : lower k = k -> ~ In k (map fst a) -> d_del k (a ++ (k, e) :: b) = Ret (a ++ b).
Proof.
  intros L N. unfold d_del. rewrite L. assert (dmem str_eqb k (a ++ (k, e) :: b) = true) as ->.
  - apply dmem_iff. rewrite map_app. apply in_or_app. right. now left.
  - now rewrite ddel_mid.
Qed.
Lemma vmem_texts k names : vmem (VStr k) (map VStr names) = true <-> In k names.
Proof.
  unfold vmem. rewrite existsb_exists. split.
  - intros (v & Hv & E). apply in_map_iff in Hv. destruct Hv as (n & <- & Hn). apply py_eq_spec in E. inversion E as [| | |x y l m A| ]; subst; try (destruct A; discriminate); assumption.
  - intros H. exists (VStr k). split; [now apply in_map|]. apply py_eq_spec. constructor.
Qed.
Lemma split_go : forall rest a new keep add, renamed rest keep add ->
  NoDup (map fst (a ++ rest) ++ map fst (new ++ add)) -> (forall k, In k (map fst rest) -> lower k = k) ->
  split_all rest (a ++ rest ++ new) = Ret (a ++ keep ++ new ++ add).
Proof.
  intros rest a new keep add R. revert a new. induction R as [|k e d keep add0 E R IH|k e d keep add0 l F R IH]; intros a new D L; cbn [split_all].
  - cbn [app]. now rewrite !app_nil_r.
  - unfold split_one. rewrite E. unfold delete_old. change [VStr k] with (map VStr [k]).
    assert (vmem (VStr k) (map VStr [k]) = true) as -> by (apply vmem_texts; now left). cbn [obind].
    assert (split_all d ((a ++ [(k, e)]) ++ d ++ new) = Ret ((a ++ [(k, e)]) ++ keep ++ new ++ add0)) as G.
    { apply IH; [rewrite <- app_assoc; exact D|]. intros x Hx. apply L. now right. }
    rewrite <- !app_assoc in G. exact G.
  - assert (lower k = k) as Lk by (apply L; now left).
    assert (~ In k (map fst a)) as Na.
    { intros H. rewrite map_app in D. apply NoDup_app_iff in D. destruct D as (D & _ & _). apply NoDup_app_iff in D. destruct D as (_ & _ & D). apply (D k H). now left. }
    assert (forall x, In x (map fst l) -> ~ In x (map fst (a ++ ((k, e) :: d) ++ new))) as Nl.
    { intros x Hx H. apply NoDup_app_iff in D. destruct D as (_ & D2 & D3). rewrite !map_app in H. rewrite !in_app_iff in H. destruct H as [H|[H|H]].
      - apply (D3 x); [rewrite map_app; apply in_or_app; now left|]. rewrite !map_app. rewrite !in_app_iff. right. now left.
      - apply (D3 x); [rewrite map_app; apply in_or_app; now right|]. rewrite !map_app. rewrite !in_app_iff. right. now left.
      - rewrite !map_app in D2. apply NoDup_app_iff in D2. destruct D2 as (_ & _ & D2). apply (D2 x H). apply in_or_app. now left. }
    assert (NoDup (map fst l)) as Dl.
    { apply NoDup_app_iff in D. destruct D as (_ & D & _). rewrite !map_app in D. apply NoDup_app_iff in D. destruct D as (_ & D & _). apply NoDup_app_iff in D. tauto. }
    assert (NoDup (map fst (a ++ d) ++ map fst ((new ++ l) ++ add0))) as D'.
    { apply NoDup_app_iff in D. destruct D as (D1 & D2 & D3). apply NoDup_app_iff. split; [|split].
      - rewrite map_app in *. cbn [map fst] in D1. apply NoDup_remove_1 in D1. exact D1.
      - rewrite <- app_assoc. exact D2.
      - intros x H1 H2. rewrite <- app_assoc in H2. apply (D3 x); [|exact H2]. rewrite map_app in *. apply in_app_iff in H1. apply in_or_app. destruct H1; [now left|right; now right]. }
    assert (forall x, In x (map fst d) -> lower x = x) as L' by (intros x Hx; apply L; now right).
    specialize (IH a (new ++ l) D' L'). rewrite <- !app_assoc in IH.
    assert (forall names : list str, map lower names = map fst l -> delete_old k (map VStr names) (a ++ ((k, e) :: d) ++ new ++ l) = Ret (a ++ d ++ new ++ l)) as Del.
    { intros names En. unfold delete_old. destruct (vmem (VStr k) (map VStr names)) eqn:V.
      - exfalso. apply vmem_texts in V. apply (Nl k); [rewrite <- En, <- Lk; now apply in_map|]. rewrite map_app, in_app_iff. right. now left.
      - apply (del_mid k e a (d ++ new ++ l) Lk Na). }
    inversion F as [t ov s Es Ps|t ov vs names Es Ev Ps]; subst.
    + unfold split_one. cbn [fst]. rewrite Es. rewrite put_ok; [|exact Ps|apply Nl; now left]. cbn [obind].
      pose proof (Del [s] eq_refl) as Del1. cbn [map] in Del1.
      transitivity (obind (Ret (a ++ d ++ new ++ [(lower s, (t, ov))])) (split_all d)); [|cbn [obind]; rewrite IH; reflexivity].
      apply (f_equal (fun x => obind x (split_all d))). etransitivity; [|exact Del1]. apply f_equal. rewrite <- !app_assoc. reflexivity.
    + unfold split_one. cbn [fst].
      assert (map lower names = map fst (map (fun n => (lower n, (dset str_eqb n_name (VStr n) t, true))) names)) as En by (rewrite map_map; reflexivity).
      assert (obind (put_names (map VStr names) t (a ++ ((k, (t, ov)) :: d) ++ new)) (delete_old k (map VStr names)) =
              Ret (a ++ d ++ new ++ map (fun n => (lower n, (dset str_eqb n_name (VStr n) t, true))) names)) as G.
      { rewrite put_names_ok; [|exact Ps|rewrite En; exact Dl|].
        - cbn [obind]. etransitivity; [|apply (Del names En)]. apply f_equal. rewrite <- !app_assoc. reflexivity.
        - intros n Hn. apply Nl. apply in_map_iff. exists (lower n, (dset str_eqb n_name (VStr n) t, true)). split; [reflexivity|]. apply in_map_iff. now exists n. }
      destruct Es as [Es|Es]; rewrite Es; (etransitivity; [apply (f_equal (fun x => obind x _)); exact G|]); cbn [obind]; rewrite IH; reflexivity.
Qed.
Theorem split_ok d keep new : renamed d keep new -> NoDup (map fst d ++ map fst new) -> (forall k, In k (map fst d) -> lower k = k) ->
  split_all d d = Ret (keep ++ new).
Proof.
  intros R D L. pose proof (split_go d [] [] keep new R D L) as H. cbn [app] in H. rewrite app_nil_r in H. exact H.
Qed.

(** ** Ranges *)
Section Match.
Local Open Scope N_scope.
Lemma seq_hd a b s c r c' r' : hd_error (rmatch a s) = Some (c, r) -> hd_error (rmatch b r) = Some (c', r') ->
  hd_error (rmatch (RSeq a b) s) = Some (c ++ c', r').
Proof.
  intros A B. rewrite rmatch_seq. eapply hd_flat; [exact A|]. cbn [fst snd]. rewrite hd_map, B. reflexivity.
Qed.
Lemma alt_hd a b s c r : hd_error (rmatch a s) = Some (c, r) -> hd_error (rmatch (RAlt a b) s) = Some (c, r).
Proof. intros H. cbn [rmatch]. now rewrite hd_app, H. Qed.
Lemma alt_hd2 a b s : rmatch a s = [] -> hd_error (rmatch (RAlt a b) s) = hd_error (rmatch b s).
Proof. intros H. cbn [rmatch]. now rewrite H. Qed.
Definition ends_number (t : str) : Prop := match t with [] => True | c :: _ => c = 58 end.
Lemma ends_nodigit t : ends_number t -> nodigit t.
Proof. destruct t as [|c t]; [reflexivity|]. now intros ->. Qed.
Lemma digits_ok ds t : all_digits ds -> ds <> [] -> nodigit t -> hd_error (rmatch digits (dtext ds ++ t)) = Some (dtext ds, t).
Proof.
  intros A N D. rewrite digits_hd, span_dtext by assumption. destruct ds as [|d r]; [now elim N|]. reflexivity.
Qed.
Lemma exp_head n t : proper n -> ends_number t -> hd_error (rmatch (ropt exp_re) (exp_text n ++ t)) = Some (exp_text n, t).
Proof.
  intros P E. unfold exp_text. destruct (n_exp n) as [[[l g] x]|] eqn:X.
  - destruct (p_exp _ P _ _ _ X) as (Hl & Hx & Nx). apply alt_hd.
    change (hd_error (rmatch exp_re ((l :: (match g with Some true => [45] | Some false => [43] | None => [] end ++ dtext x)) ++ t)) = Some ([l] ++ (match g with Some true => [45] | Some false => [43] | None => [] end ++ dtext x), t)).
    apply seq_hd with (r := (match g with Some true => [45] | Some false => [43] | None => [] end ++ dtext x) ++ t).
    + cbn [app]. unfold one_of. cbn [rmatch]. assert (existsb (N.eqb l) [101; 69; 100; 68] = true) as ->; [|reflexivity].
      apply existsb_exists. exists l. split; [exact Hl|apply N.eqb_refl].
    + rewrite <- app_assoc. apply seq_hd with (r := dtext x ++ t).
      * destruct g as [[|]|]; [reflexivity|reflexivity|]. cbn [app]. destruct x as [|d x]; [now elim Nx|]. unfold ropt. rewrite alt_hd2; [reflexivity|].
        cbn [dtext map app]. unfold one_of. cbn [rmatch]. pose proof (Forall_inv Hx) as Hd. cbv beta in Hd. destruct (existsb (N.eqb (48 + d)) [43; 45]) eqn:B; [|reflexivity].
        apply existsb_exists in B. destruct B as (y & Hy & B). apply N.eqb_eq in B. cbn in Hy. lia.
      * apply digits_ok; [exact Hx|exact Nx|now apply ends_nodigit].
  - cbn [app]. unfold ropt. rewrite alt_hd2; [reflexivity|]. unfold exp_re. rewrite rmatch_seq. unfold one_of at 1. cbn [rmatch].
    destruct t as [|c t]; [reflexivity|]. cbn in E. subst c. reflexivity.
Qed.
Lemma tail_first n t : proper n -> ends_number t -> match exp_text n ++ t with [] => True | c :: _ => is_digit c = false /\ c <> 46 end.
Proof.
  intros P E. unfold exp_text. destruct (n_exp n) as [[[l g] x]|] eqn:X.
  - destruct (p_exp _ P _ _ _ X) as (Hl & _). cbn [app]. destruct (letter_nodigit l Hl) as (A & B & _). now split.
  - cbn [app]. destruct t as [|c t]; [exact I|]. cbn in E. subst c. now split.
Qed.
Lemma base_head n t : proper n -> ends_number t ->
  hd_error (rmatch (RAlt (RSeq (RStar digit) (RSeq (is 46) digits)) (RSeq digits (ropt (is 46))))
                   ((dtext (n_int n) ++ match n_frac n with Some f => 46 :: dtext f | None => [] end) ++ exp_text n ++ t)) =
  Some (dtext (n_int n) ++ match n_frac n with Some f => 46 :: dtext f | None => [] end, exp_text n ++ t).
Proof.
  intros P E. pose proof (tail_first n t P E) as F. set (tl_ := exp_text n ++ t) in *. clearbody tl_.
  assert (nodigit tl_) as ND by (destruct tl_; [exact I|apply F]).
  assert (forall c s, is_digit c = true -> rmatch (RSeq (is 46) digits) (c :: s) = []) as Dot.
  { intros c s Hc. rewrite rmatch_seq, dot_digit by exact Hc. reflexivity. }
  assert (forall r, nodigit r -> rmatch (RSeq (RStar digit) (RSeq (is 46) digits)) (dtext (n_int n) ++ r) = map (pre (dtext (n_int n))) (rmatch (RSeq (is 46) digits) r)) as A.
  { intros r Hr. unfold digit at 1. rewrite seq_star_chr by exact Dot. rewrite span_dtext by (try exact Hr; apply (p_int _ P)). reflexivity. }
  rewrite <- app_assoc. destruct (n_frac n) as [f|] eqn:Ef.
  - pose proof (p_frac _ P _ Ef) as Hf. cbn [app]. destruct f as [|d f].
    + cbn [dtext map app]. rewrite alt_hd2.
      * destruct (p_some _ P) as [Ni|(f & Ef' & Nf)]; [|rewrite Ef in Ef'; injection Ef' as <-; now elim Nf].
        apply seq_hd with (r := 46 :: tl_); [apply digits_ok; [apply (p_int _ P)|exact Ni|reflexivity]|]. reflexivity.
      * rewrite A by reflexivity. rewrite rmatch_seq. rewrite is_chr. cbn [N.eqb Pos.eqb flat_map fst snd]. rewrite app_nil_r.
        destruct (rmatch digits tl_) as [|x l] eqn:R; [reflexivity|]. exfalso. pose proof (digits_hd tl_) as H. rewrite R in H. cbn [hd_error] in H.
        destruct (span is_digit tl_) as [a b] eqn:S0. destruct tl_ as [|c r]; [cbn in S0; injection S0 as <- <-; discriminate|]. cbn [span] in S0. cbn in ND. rewrite ND in S0. injection S0 as <- <-. discriminate.
    + apply alt_hd. rewrite A by reflexivity. rewrite hd_map.
      assert (hd_error (rmatch (RSeq (is 46) digits) (46 :: dtext (d :: f) ++ tl_)) = Some ([46] ++ dtext (d :: f), tl_)) as ->; [|reflexivity].
      apply seq_hd with (r := dtext (d :: f) ++ tl_); [reflexivity|]. apply digits_ok; [exact Hf|discriminate|exact ND].
  - cbn [app]. rewrite app_nil_r. rewrite alt_hd2.
    + destruct (p_some _ P) as [Ni|(f & Ef' & _)]; [|congruence].
      rewrite <- (app_nil_r (dtext (n_int n))) at 2. apply seq_hd with (r := tl_); [apply digits_ok; [apply (p_int _ P)|exact Ni|exact ND]|].
      unfold ropt. rewrite alt_hd2; [reflexivity|]. rewrite is_chr. destruct tl_ as [|c r]; [reflexivity|]. destruct F as [_ F]. destruct (N.eqb_spec 46 c); [congruence|reflexivity].
    + rewrite A by exact ND. rewrite rmatch_seq, is_chr. destruct tl_ as [|c r]; [reflexivity|]. destruct F as [_ F]. destruct (N.eqb_spec 46 c); [congruence|reflexivity].
Qed.
Lemma num_head n t : proper n -> n_su n = None -> ends_number t -> hd_error (rmatch range_num (text n ++ t)) = Some (text n, t).
Proof.
  intros P S0 E. pose proof (base_head n t P E) as B. pose proof (exp_head n t P E) as X.
  assert (text n ++ t = (if n_neg n then [45] else []) ++ (dtext (n_int n) ++ match n_frac n with Some f => 46 :: dtext f | None => [] end) ++ exp_text n ++ t) as Et.
  { unfold text, base_text, su_text. rewrite S0. cbn [app]. rewrite <- !app_assoc. reflexivity. }
  assert (text n = (if n_neg n then [45] else []) ++ (dtext (n_int n) ++ match n_frac n with Some f => 46 :: dtext f | None => [] end) ++ exp_text n) as En.
  { unfold text, base_text, su_text. rewrite S0. cbn [app]. rewrite <- !app_assoc. reflexivity. }
  rewrite Et. rewrite En at 1. unfold range_num. apply seq_hd with (r := (dtext (n_int n) ++ match n_frac n with Some f => 46 :: dtext f | None => [] end) ++ exp_text n ++ t).
  - rewrite minus_hd. destruct (n_neg n) eqn:G; [reflexivity|]. destruct (first_char n t P G) as (c & r & Ec & Nc). rewrite Et in Ec. cbn [app] in Ec |- *. rewrite Ec.
    destruct (N.eqb_spec c 45); [congruence|reflexivity].
  - apply seq_hd with (r := exp_text n ++ t); [exact B|exact X].
Qed.
Lemma none_head t : ends_number t -> rmatch range_num t = [].
Proof.
  intros E. unfold range_num. rewrite rmatch_seq, minus_hd. destruct t as [|c t]; [reflexivity|]. cbn in E. subst c. reflexivity.
Qed.
End Match.
Lemma repeated_none k t : ends_number t -> repeated k t = [(None, t)].
Proof. intros E. destruct k; cbn [repeated]; [reflexivity|]. now rewrite none_head. Qed.
Lemma text_some n : proper n -> n_su n = None -> exists c r, text n = c :: r.
Proof.
  intros P S0. destruct (text n) as [|c r] eqn:E; [|now exists c, r]. exfalso. unfold text, base_text in E. apply app_eq_nil in E. destruct E as [E _]. apply app_eq_nil in E. destruct E as [_ E].
  apply app_eq_nil in E. destruct E as [E1 E2]. apply dtext_nil in E1. destruct (p_some _ P) as [H|(f & H & _)]; [now elim H|]. rewrite H in E2. discriminate.
Qed.
Definition end_group (o : option numeral) : option str := option_map text o.
Lemma rep_hd o t : readable_end o -> ends_number t -> hd_error (rep (end_text o ++ t)) = Some (end_group o, t).
Proof.
  intros R E. unfold rep. destruct o as [n|]; cbn [end_text end_group option_map].
  - destruct R as (P & S0 & _). destruct (text_some n P S0) as (c & r & Et). rewrite Et at 1. cbn [app length repeated].
    rewrite hd_app. erewrite hd_flat; [|apply num_head; assumption|]; cbn [fst snd]; [|rewrite repeated_none by exact E; cbn [map hd_error]; reflexivity]. reflexivity.
  - cbn [app]. now rewrite repeated_none.
Qed.
Lemma range_match_ok lo up : readable_end lo -> readable_end up -> range_match (range_text lo up) = Some (end_group lo, end_group up).
Proof.
  intros A B. unfold range_match, range_text. pose proof (rep_hd lo (58%N :: end_text up) A eq_refl) as H1. pose proof (rep_hd up [] B I) as H2. rewrite app_nil_r in H2.
  eapply hd_flat; [exact H1|]. cbn [fst snd]. rewrite N.eqb_refl. rewrite hd_map, H2. reflexivity.
Qed.
Definition end_of (o : option numeral) : value := match o with Some n => VNum (text n) | None => VStr [46%N] end.
Lemma end_value_ok o : readable_end o -> end_value (end_group o) = Ret (end_of o).
Proof.
  destruct o as [n|]; [|reflexivity]. intros (P & S0 & X). destruct (float_plain n P S0 X) as (q & E & _). cbn [end_group option_map end_value end_of].
  unfold float_with_esd in E. rewrite before_none in E.
  - rewrite E. reflexivity.
  - unfold text, su_text. rewrite S0. cbn [app]. rewrite in_app_iff. intros [H|H]; [now apply (base_clean n P)|].
    unfold exp_text in H. destruct (n_exp n) as [[[l g] x]|] eqn:Ex; [|destruct H]. destruct (p_exp _ P _ _ _ Ex) as (Hl & Hx & _). destruct H as [H|H].
    + subst l. cbn in Hl. intuition discriminate.
    + apply in_app_iff in H. destruct H as [H|H]; [destruct g as [[|]|]; cbn in H; intuition discriminate|]. now apply (dtext_clean x 40%N Hx eq_refl).
Qed.
Lemma getmaxmin_ok lo up : readable_end lo -> readable_end up -> getmaxmin (VStr (range_text lo up)) = Ret (end_of up, end_of lo).
Proof.
  intros A B. unfold getmaxmin. rewrite range_match_ok by assumption. rewrite end_value_ok by exact A. cbn [obind]. rewrite end_value_ok by exact B. reflexivity.
Qed.
Definition range_lists (lo up : option numeral) : list value * list value :=
  match lo, up with
  | None, _ => ([end_of up; end_of up], [end_of up; end_of lo])
  | Some _, None => ([end_of up; end_of lo], [end_of lo; end_of lo])
  | Some _, Some _ => ([end_of up; end_of up; end_of lo], [end_of up; end_of lo; end_of lo])
  end.
Lemma add_range_ok t lo up : readable_end lo -> readable_end up -> tget n_range t = Some (VStr (range_text lo up)) ->
  add_range t = Ret (put range_min (VList (snd (range_lists lo up))) (put range_max (VList (fst (range_lists lo up))) t)).
Proof.
  intros A B E. unfold add_range. rewrite E, getmaxmin_ok by assumption. cbn [obind]. destruct lo as [l|]; [|reflexivity]. destruct up; reflexivity.
Qed.
Definition end_bound (o : option numeral) : option Q := option_map number o.
Lemma bound_end o : readable_end o -> bound_of (end_of o) (end_bound o).
Proof.
  destruct o as [n|]; cbn [end_of end_bound option_map]; [|constructor]. intros (P & S0 & X). eapply b_num; [exact P|exact S0|exact X|reflexivity|now right].
Qed.
Definition bound_lists (lo up : option numeral) : list (option Q) * list (option Q) :=
  match lo, up with
  | None, _ => ([end_bound up; end_bound up], [end_bound up; end_bound lo])
  | Some _, None => ([end_bound up; end_bound lo], [end_bound lo; end_bound lo])
  | Some _, Some _ => ([end_bound up; end_bound up; end_bound lo], [end_bound up; end_bound lo; end_bound lo])
  end.
Lemma range_bounds lo up : readable_end lo -> readable_end up ->
  Forall2 bound_of (snd (range_lists lo up)) (snd (bound_lists lo up)) /\ Forall2 bound_of (fst (range_lists lo up)) (fst (bound_lists lo up)).
Proof.
  intros A B. pose proof (bound_end lo A) as X. pose proof (bound_end up B) as Y.
  destruct lo as [l|]; [destruct up as [h|]|]; cbn [range_lists bound_lists fst snd]; split; repeat (constructor; [assumption|]); constructor.
Qed.
Local Open Scope Q_scope.
Lemma range_inside lo up x : inside (combine (snd (bound_lists lo up)) (fst (bound_lists lo up))) x <->
  (between lo up x \/ (exists a b, lo = Some a /\ up = Some b /\ (number b < number a) /\ (x == number a \/ x == number b))).
Proof.
  unfold inside, between. destruct lo as [l|]; destruct up as [h|]; cbn [bound_lists fst snd combine end_bound option_map above below].
  - split.
    + intros (a & b & I & H). cbn [In] in I.
      destruct I as [I|[I|[I|[]]]]; injection I as <- <-; cbn [above below] in H; destruct H as [[H1 H2]|(p & q & E1 & E2 & E3 & E4)];
        try (injection E1 as <-); try (injection E2 as <-).
      * exfalso. apply (Qlt_irrefl x). now apply Qlt_trans with (number h).
      * destruct (Qlt_le_dec (number h) (number l)) as [C|C]; [right; exists l, h; repeat split; [exact C|right; now symmetry]|].
        left. split; [rewrite <- E3; exact C|rewrite E3; apply Qle_refl].
      * left. split; now apply Qlt_le_weak.
      * left. split; [rewrite E3; apply Qle_refl|rewrite E4; apply Qle_refl].
      * exfalso. apply (Qlt_irrefl x). now apply Qlt_trans with (number l).
      * destruct (Qlt_le_dec (number h) (number l)) as [C|C]; [right; exists l, h; repeat split; [exact C|left; now symmetry]|].
        left. split; [rewrite E3; apply Qle_refl|rewrite <- E3; exact C].
    + intros [[H1 H2]|(a & b & E1 & E2 & C & [H|H])].
      * destruct (Qle_lt_or_eq _ _ H1) as [L1|L1].
        -- destruct (Qle_lt_or_eq _ _ H2) as [L2|L2].
           ++ exists (Some (number l)), (Some (number h)). split; [right; left; reflexivity|]. left. now split.
           ++ exists (Some (number h)), (Some (number h)). split; [left; reflexivity|]. right. exists (number h), (number h). repeat split; now symmetry.
        -- exists (Some (number l)), (Some (number l)). split; [right; right; left; reflexivity|]. right. exists (number l), (number l). repeat split; assumption.
      * injection E1 as <-. injection E2 as <-. exists (Some (number l)), (Some (number l)). split; [right; right; left; reflexivity|]. right. exists (number l), (number l). repeat split; now symmetry.
      * injection E1 as <-. injection E2 as <-. exists (Some (number h)), (Some (number h)). split; [left; reflexivity|]. right. exists (number h), (number h). repeat split; now symmetry.
  - split.
    + intros (a & b & I & H). left. split; [|exact Logic.I]. cbn [In] in I. destruct I as [I|[I|[]]]; injection I as <- <-; cbn [above below] in H; destruct H as [[H1 H2]|(p & q & E1 & E2 & E3 & E4)].
      * now apply Qlt_le_weak.
      * discriminate.
      * now apply Qlt_le_weak.
      * injection E1 as <-. rewrite E3. apply Qle_refl.
    + intros [[H1 _]|(a & b & _ & E & _)]; [|discriminate]. destruct (Qle_lt_or_eq _ _ H1) as [L1|L1].
      * exists (Some (number l)), None. split; [left; reflexivity|]. left. now split.
      * exists (Some (number l)), (Some (number l)). split; [right; left; reflexivity|]. right. exists (number l), (number l). repeat split; assumption.
  - split.
    + intros (a & b & I & H). left. split; [exact Logic.I|]. cbn [In] in I. destruct I as [I|[I|[]]]; injection I as <- <-; cbn [above below] in H; destruct H as [[H1 H2]|(p & q & E1 & E2 & E3 & E4)].
      * now apply Qlt_le_weak.
      * injection E1 as <-. rewrite E3. apply Qle_refl.
      * now apply Qlt_le_weak.
      * discriminate.
    + intros [[_ H1]|(a & b & E & _)]; [|discriminate]. destruct (Qle_lt_or_eq _ _ H1) as [L1|L1].
      * exists None, (Some (number h)). split; [right; left; reflexivity|]. left. now split.
      * exists (Some (number h)), (Some (number h)). split; [left; reflexivity|]. right. exists (number h), (number h). repeat split; now symmetry.
  - split; [intros _; left; split; exact Logic.I|]. intros _. exists None, None. split; [left; reflexivity|]. left. now split.
Qed.
