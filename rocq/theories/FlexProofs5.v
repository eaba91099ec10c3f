(** Quoted values and text fields. *)
From Coq Require Import String Ascii List NArith PeanoNat Bool Lia.
From Verif Require Import PyBase PyFacts RegexModel RegexFacts RegexSpec RegexProofs ScanModel ScanFacts ScanSpec ScanProofs ScanProofs2 ScanProofs3 ReadModel ParseModel FlexModel FlexSpec FlexProofs FlexProofs2 FlexProofs3 FlexProofs4.
Import ListNotations.
Open Scope nat_scope.

(** ** Quotes in the first scanner *)
Definition q_body (q : N) (ex : str) : re := RAlt (RSeq (is q) (RAhead (RChr ns))) (RChr (not_in ex)).
Definition next_ns (x : str) : bool := match x with d :: _ => ns d | [] => false end.
Lemma q_body_match q ex c x : In q ex ->
  rmatch (q_body q ex) (c :: x) = if (c =? q)%N then if next_ns x then [([c], x)] else [] else if not_in ex c then [([c], x)] else [].
Proof.
  intros H. unfold q_body. rewrite rmatch_alt. unfold is. rewrite rmatch_seq_chr. cbn [rmatch]. rewrite N.eqb_sym. destruct (N.eqb_spec c q) as [->|N0].
  - rewrite (not_in_false ex q H), app_nil_r. destruct x as [|d x]; [reflexivity|]. cbn [next_ns]. destruct (ns d); reflexivity.
  - reflexivity.
Qed.
Definition q_rest (q : N) (ex : str) : re := RSeq (RStar (q_body q ex)) (rplus (is q)).
Definition orr {A} (o p : option A) : option A := match o with Some x => Some x | None => p end.
Lemma star_one (f : str -> list (str * str)) n c x : f (c :: x) = [([c], x)] -> star_go f (S n) (c :: x) = map (pre [c]) (star_go f n x) ++ [([], c :: x)].
Proof. intros E. cbn [star_go]. rewrite E. cbn [flat_map fst snd]. rewrite app_nil_r. reflexivity. Qed.
Lemma star_none (f : str -> list (str * str)) n s : f s = [] -> star_go f n s = [([], s)].
Proof. intros E. destruct n; cbn [star_go]; [reflexivity|]. now rewrite E. Qed.
Lemma hd_flat_app {A B} (f : A -> list B) l1 l2 : hd_error (flat_map f (l1 ++ l2)) = orr (hd_error (flat_map f l1)) (hd_error (flat_map f l2)).
Proof. rewrite flat_map_app, hd_app. now destruct (hd_error (flat_map f l1)). Qed.
Lemma q_rest_step q ex c x : rmatch (q_body q ex) (c :: x) = [([c], x)] ->
  re_match (q_rest q ex) (c :: x) = orr (option_map (pre [c]) (re_match (q_rest q ex) x)) (re_match (rplus (is q)) (c :: x)).
Proof.
  intros E. unfold q_rest, re_match. rewrite !rmatch_seq. change (rmatch (RStar (q_body q ex)) (c :: x)) with (star_go (rmatch (q_body q ex)) (S (length x)) (c :: x)).
  rewrite (star_one _ _ _ _ E). rewrite hd_flat_app. f_equal.
  - rewrite flat_map_map. rewrite <- hd_map_pre. rewrite map_flat_map. f_equal. change (rmatch (RStar (q_body q ex)) x) with (star_go (rmatch (q_body q ex)) (length x) x). apply flat_map_ext. intros [a b]. cbn [pre fst snd]. now rewrite pre_pre.
  - cbn [flat_map fst snd]. rewrite app_nil_r, pre_nil. reflexivity.
Qed.
Lemma q_rest_stop q ex s : rmatch (q_body q ex) s = [] -> re_match (q_rest q ex) s = re_match (rplus (is q)) s.
Proof.
  intros E. unfold q_rest, re_match. rewrite rmatch_seq. change (rmatch (RStar (q_body q ex)) s) with (star_go (rmatch (q_body q ex)) (length s) s).
  rewrite (star_none _ _ _ E). cbn [flat_map fst snd]. now rewrite app_nil_r, pre_nil.
Qed.
(** ** ... and in the compiled one *)
Definition f_line (q : N) : re := RSeq (RStar (RChr true_char)) (is q).
Definition f_rest (q : N) (x : str) : option (str * str) :=
  match longest (f_line q) x with Some (m, r) => Some (fst (quote_end q m), snd (quote_end q m) ++ r) | None => None end.
Lemma f_line_cons q c x : true_char q = true -> true_char c = true ->
  longest (f_line q) (c :: x) = match longest (f_line q) x with Some (m, r) => Some (c :: m, r) | None => if (c =? q)%N then Some ([c], x) else None end.
Proof.
  intros Q C. destruct (longest (f_line q) x) as [[m r]|] eqn:E.
  - assert (x = m ++ r /\ lang (f_line q) m r) as [Ex L] by now apply longest_sound.
    assert (forall m' t', x = m' ++ t' -> lang (f_line q) m' t' -> length m' <= length m) as Mx.
    { intros m' t' E1 L1. unfold longest in E. pose proof (longest_fold (rmatch (f_line q) x) None) as F. rewrite E in F. destruct F as (_ & F & _). specialize (F (m', t')). apply F. apply rmatch_lang. now split. }
    apply longest_is; [now rewrite Ex| |].
    + destruct L as (a & b & -> & La & Lb). exists (c :: a), b. split; [reflexivity|]. split; [|exact Lb]. apply lang_star. apply lang_star in La. now constructor.
    + intros m' t' E1 (a & b & -> & La & (y & -> & Ly)). apply lang_star in La. destruct a as [|d a].
      * cbn [app] in E1. cbn [app length]. lia.
      * cbn [app] in E1. injection E1 as <- E1. cbn [app length]. apply le_n_S. apply (Mx _ t' E1). exists a, [y]. split; [reflexivity|]. split; [|now exists y]. apply lang_star. now inversion La.
  - assert (forall m' t', x = m' ++ t' -> ~ lang (f_line q) m' t') as Nx.
    { intros m' t' E1 L1. unfold longest in E. pose proof (longest_fold (rmatch (f_line q) x) None) as F. rewrite E in F. destruct F as (F & _).
      assert (In (m', t') (rmatch (f_line q) x)) as K by (apply rmatch_lang; now split). rewrite F in K. destruct K. }
    assert (forall m' t', c :: x = m' ++ t' -> lang (f_line q) m' t' -> m' = [c] /\ c = q) as U.
    { intros m' t' E1 (a & b & -> & La & (y & -> & Ly)). apply lang_star in La. apply N.eqb_eq in Ly. destruct a as [|d a].
      - cbn [app] in E1 |- *. injection E1 as <- _. split; [reflexivity|now symmetry].
      - exfalso. cbn [app] in E1. injection E1 as <- E1. apply (Nx _ t' E1). exists a, [y]. split; [reflexivity|]. split; [apply lang_star; now inversion La|]. exists y. split; [reflexivity|now apply N.eqb_eq]. }
    destruct (N.eqb_spec c q) as [->|N0].
    + apply longest_is; [reflexivity| |].
      * exists [], [q]. split; [reflexivity|]. split; [apply lang_star; constructor|]. exists q. split; [reflexivity|apply N.eqb_refl].
      * intros m' t' E1 L1. destruct (U _ _ E1 L1) as [-> _]. reflexivity.
    + apply longest_none. intros m' t' E1 L1. now destruct (U _ _ E1 L1).
Qed.
Lemma f_line_nil q : longest (f_line q) [] = None.
Proof. reflexivity. Qed.
Lemma f_line_newline q x : q <> 10%N -> longest (f_line q) (10%N :: x) = None.
Proof.
  intros H. apply longest_nil. apply rmatch_none; [reflexivity|]. cbn [f_line first_ok nullable is andb]. destruct (N.eqb_spec q 10); [contradiction|]. reflexivity.
Qed.
Lemma plus_other q c x : c <> q -> re_match (rplus (is q)) (c :: x) = None.
Proof. intros H. unfold is. rewrite re_plus_chr. cbn [span]. assert ((q =? c)%N = false) as ->; [|reflexivity]. apply N.eqb_neq. now apply not_eq_sym. Qed.
Lemma quotes_agree q ex x : q = 39%N /\ ex = excl_sq \/ q = 34%N /\ ex = excl_dq -> plain_text x -> re_match (q_rest q ex) x = f_rest q x.
Proof.
  intros Q. assert (In q ex) as Iq by (destruct Q as [[-> ->]|[-> ->]]; cbn; tauto).
  assert (true_char q = true) as Tq by (destruct Q as [[-> _]|[-> _]]; reflexivity).
  assert (q <> 10%N) as Nq by (destruct Q as [[-> _]|[-> _]]; discriminate).
  assert (ns q = true) as Sq by (destruct Q as [[-> _]|[-> _]]; reflexivity).
  assert (forall c, (32 <= c <= 126)%N \/ c = 9%N \/ c = 10%N -> c <> q -> not_in ex c = negb (c =? 10)%N) as Ex.
  { intros c Pc Nc. unfold not_in. f_equal. destruct Q as [[-> ->]|[-> ->]]; cbn [existsb excl_sq excl_dq];
      repeat match goal with |- context [(c =? ?k)%N] => lazymatch k with 10%N => fail | _ => assert ((c =? k)%N = false) as -> by (apply N.eqb_neq; lia) end end; now rewrite ?orb_false_r. }
  induction x as [|c x IH]; intros P.
  { rewrite q_rest_stop by reflexivity. reflexivity. }
  apply plain_cons in P. destruct P as [Pc P]. specialize (IH P). unfold f_rest in *.
  destruct (N.eq_dec c 10) as [->|N10].
  { rewrite f_line_newline by exact Nq. rewrite q_rest_stop; [apply plus_other; now apply not_eq_sym|]. rewrite q_body_match by exact Iq.
    destruct (N.eqb_spec 10 q) as [K|K]; [now symmetry in K|]. rewrite Ex by tauto. reflexivity. }
  assert (true_char c = true) as Tc. { rewrite plain_true_char by exact Pc. now apply negb_true_iff, N.eqb_neq. }
  rewrite (f_line_cons q c x Tq Tc).
  destruct (N.eqb_spec c q) as [->|Nc].
  - pose proof (q_body_match q ex q x Iq) as B. rewrite N.eqb_refl in B. destruct (next_ns x) eqn:Nx.
    + rewrite (q_rest_step q ex q x B), IH. destruct x as [|d x]; [discriminate|]. cbn [next_ns] in Nx.
      destruct (longest (f_line q) (d :: x)) as [[m r]|] eqn:E.
      * cbn [option_map orr pre fst snd app]. 
        assert (exists m', m = d :: m') as (m' & ->).
        { apply longest_sound in E. destruct E as [E (a & b & -> & _ & (y & -> & _))]. destruct a as [|z a]; cbn [app] in E |- *; injection E as <- E; eexists; reflexivity. }
        assert (c_space d = false) as Cd.
        { unfold ns, is_space in Nx. apply negb_true_iff in Nx. unfold c_space. destruct ((9 <=? d) && (d <=? 13))%N eqn:B1; [discriminate Nx|]. cbn [orb] in Nx |- *.
          destruct (N.eqb_spec d 32) as [->|]; [discriminate Nx|reflexivity]. }
        change (quote_end q (q :: d :: m')) with (if (q =? q)%N && c_space d then ([q], d :: m') else (q :: fst (quote_end q (d :: m')), snd (quote_end q (d :: m')))).
        rewrite N.eqb_refl, Cd. reflexivity.
      * cbn [option_map orr]. assert (d <> q) as Nd.
        { intros ->. apply plain_cons in P. destruct P as [Pd P]. rewrite f_line_cons in E by assumption. rewrite N.eqb_refl in E. destruct (longest (f_line q) x) as [[? ?]|]; discriminate E. }
        rewrite rplus_one; [|cbn [first_is]; now apply N.eqb_neq]. cbn [quote_end fst snd app]. rewrite andb_false_r. reflexivity.
    + rewrite (q_rest_stop q ex (q :: x) B). rewrite rplus_one.
      2:{ destruct x as [|d x]; [reflexivity|]. cbn [first_is next_ns] in *. destruct (N.eqb_spec d q) as [->|]; [congruence|reflexivity]. }
      destruct x as [|d x]; [rewrite f_line_nil; cbn [quote_end]; rewrite andb_false_r; reflexivity|].
      cbn [next_ns] in Nx. apply plain_cons in P. destruct P as [Pd P].
      assert (c_space d = true) as Cd.
      { rewrite plain_ns in Nx by exact Pd. destruct (plain_cases d Pd) as [[->| ->]|[->|K]]; try reflexivity. congruence. }
      destruct (longest (f_line q) (d :: x)) as [[m r]|] eqn:E.
      * apply longest_sound in E. destruct E as [E (a & b & Em & _ & (y & -> & _))].
        assert (exists m', m = d :: m') as (m' & Em').
        { rewrite Em in E |- *. destruct a as [|z a]; cbn [app] in E |- *; injection E as <- E; eexists; reflexivity. }
        rewrite Em' in *. change (quote_end q (q :: d :: m')) with (if (q =? q)%N && c_space d then ([q], d :: m') else (q :: fst (quote_end q (d :: m')), snd (quote_end q (d :: m')))).
        rewrite N.eqb_refl, Cd. cbn [andb fst snd]. now rewrite <- E.
      * cbn [quote_end]. rewrite andb_false_r. reflexivity.
  - pose proof (q_body_match q ex c x Iq) as B. destruct (N.eqb_spec c q) as [K|_]; [contradiction|]. rewrite Ex in B by assumption. destruct (N.eqb_spec c 10) as [K|_]; [contradiction|]. cbn [negb] in B.
    rewrite (q_rest_step q ex c x B), IH, plus_other by exact Nc. destruct (longest (f_line q) x) as [[m r]|]; [|reflexivity]. cbn [option_map orr pre fst snd app].
    assert (quote_end q (c :: m) = (c :: fst (quote_end q m), snd (quote_end q m))) as ->; [|reflexivity].
    cbn [quote_end]. destruct (N.eqb_spec c q); [contradiction|]. reflexivity.
Qed.
