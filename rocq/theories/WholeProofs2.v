(** The scanner picks the token that stands at a place. *)
From Coq Require Import String Ascii List NArith PeanoNat Bool Lia ZifyBool ZifyN ZifyNat.
From Verif Require Import PyBase PyFacts RegexModel RegexFacts FoldModel ScanModel ReadModel ParseModel
  ScanFacts ScanSpec ScanProofs ScanProofs2 ScanProofs3 TextProofs TextProofs2 ParseSpec GrammarSpec WholeSpec WholeProofs.
Import ListNotations.
Open Scope nat_scope.

(** ** The vocabulary of the specification and that of the patterns *)
Lemma in_not_in c l : ~ In c l -> not_in l c = true.
Proof.
  intros H. unfold not_in. apply negb_true_iff, not_true_iff_false. intros X. apply existsb_exists in X. destruct X as (x & Hx & E).
  apply N.eqb_eq in E. subst. tauto.
Qed.
Lemma first_plain g c : is_space c = false -> ~ In c (not_first g) -> plain_first g c = true.
Proof. intros H1 H2. unfold plain_first, ns. rewrite H1. cbn [negb andb]. destruct g; now apply in_not_in. Qed.
Lemma inside_plain g c : is_space c = false -> ~ In c (not_inside g) -> plain_next g c = true.
Proof. intros H1 H2. unfold plain_next, ns. rewrite H1. cbn [negb andb]. destruct g; try reflexivity; now apply in_not_in. Qed.
Lemma over_follows g s : value_over g s -> follows g s.
Proof.
  destruct s as [|c s]; [trivial|]. cbn. intros [H|H]; unfold plain_next, ns; [now rewrite H|].
  destruct g; cbn [not_inside] in H; [destruct H|destruct H| |]; rewrite (not_in_false _ _ H); apply andb_false_r.
Qed.
Lemma starts_app w s : starts_with w s = true -> exists r, s = w ++ r.
Proof.
  revert s. induction w as [|c w IH]; intros s H; [exists s; reflexivity|]. destruct s as [|d s]; [discriminate|]. cbn in H.
  apply andb_true_iff in H. destruct H as [E H]. apply N.eqb_eq in E. subst. destruct (IH s H) as [r ->]. exists r. reflexivity.
Qed.
Lemma not_reserved m : ~ reserved_word m -> reserved_start m = false.
Proof.
  intros H. apply not_true_iff_false. intros X. apply H. unfold reserved_start in X. rewrite !orb_true_iff in X.
  destruct X as [[[X|X]|X]|X]; destruct (starts_app _ _ X) as [r E]; [exists (u "save_")|exists (u "global_")|exists (u "stop_")|exists (u "data_")];
    exists r; (split; [cbn; tauto|exact E]).
Qed.
Lemma quote_chars q c : ~ unquotable q c -> c <> q -> quote q -> ~ In c (excl q).
Proof.
  unfold unquotable, eol, excl. intros H Hc [->| ->]; cbn [N.eqb Pos.eqb sq]; cbn; intuition congruence.
Qed.
Lemma eols_true y : Forall eol y -> Forall (fun c => is_eol c = true) y.
Proof. apply Forall_impl. intros c [->| ->]; reflexivity. Qed.
Lemma not_eol_true x : Forall (fun c => ~ eol c) x -> Forall (fun c => not_eol c = true) x.
Proof. apply Forall_impl. intros c H. rewrite not_eol_spec. unfold eol, is_eol in *. lia. Qed.
Lemma line_over_eol s : line_over s -> match s with [] => True | c :: _ => is_eol c = false end.
Proof. destruct s as [|c s]; [trivial|]. cbn. unfold eol, is_eol. lia. Qed.
Lemma hd_first_q q s : hd_error s <> Some q -> first_is q s = false.
Proof. destruct s as [|c s]; [reflexivity|]. cbn. intros H. apply N.eqb_neq. congruence. Qed.
Lemma quote_sq q : quote q -> q = sq \/ q = dq.
Proof. tauto. Qed.

(** ** Where a token is looked for *)
Definition closing (g : grammar) (t : tok) : list tok := match g with GS2 => [Comma; t] | _ => [t] end.
Definition list_set (g : grammar) : list tok := closing g CSquare ++ value_first g.
Definition table_set (g : grammar) : list tok := closing g CCurl ++ [TripleQ; SingleQ].
Definition place (g : grammar) (R : list tok) : Prop :=
  R = value_first g \/ (cif2 g /\ (R = list_set g \/ R = table_set g \/ R = [TripleQ; SingleQ]))
  \/ R = DataName :: value_first g \/ R = value_first g ++ item_follow \/ R = item_follow \/ R = [DataHeading; End].
Lemma place_nonempty g R : place g R -> R <> [].
Proof. intros [->|[[C [->|[->| ->]]]|[->|[->|[->| ->]]]]]; destruct g; discriminate. Qed.
Lemma place_normal g R t : place g R -> In t R -> In t normal /\ t <> Colon.
Proof.
  intros [->|[[C [->|[->| ->]]]|[->|[->|[->| ->]]]]] H; destruct g; cbn in H; repeat (destruct H as [<-|H]; [split; [cbn; tauto|discriminate]|]); destruct H.
Qed.
Lemma place_ts g R : place g R -> In Ign1 (accepted g R) /\ In Ign2 (accepted g R) /\ forall t, In t (accepted g R) -> In t (Ign1 :: Ign2 :: normal).
Proof.
  intros P. pose proof (place_nonempty g R P) as Hne. split; [|split].
  - apply accepted_In; [exact Hne|]. split; [destruct g; cbn; tauto|now right].
  - apply accepted_In; [exact Hne|]. split; [destruct g; cbn; tauto|now right].
  - intros t H. apply accepted_In in H; [|exact Hne]. destruct H as [_ [H|H]]; [right; right; exact (proj1 (place_normal g R t P H))|].
    destruct t; try discriminate H; cbn; tauto.
Qed.
(** The others: tokens in the patterns, normal, and not a colon. *)
Definition rivals : list tok := Ign1 :: Ign2 :: [LBlock; DataName; SaveHeading; SaveEnd; DataHeading; End; Value1; TripleQ; SingleQ; StartSc; OSquare; OCurl; Comma; CSquare; CCurl].
Lemma place_rivals g R t : place g R -> In t (accepted g R) -> In t (patterns g) /\ In t rivals /\ (In t R \/ ignored t = true).
Proof.
  intros P H. apply accepted_In in H; [|now apply place_nonempty in P]. destruct H as [H1 H2]. split; [exact H1|]. split; [|exact H2].
  destruct H2 as [H2|H2]; [|destruct t; try discriminate H2; cbn; tauto]. destruct (place_normal g R t P H2) as [H3 H4].
  cbn in H3 |- *. intuition congruence.
Qed.
Lemma place_accepts g R t : place g R -> In t R -> In t (patterns g) -> In t (accepted g R).
Proof. intros P H H'. apply accepted_In; [now apply place_nonempty in P|]. split; [exact H'|now left]. Qed.
Lemma place_context g R t : place g R -> In t R -> In t [Value1; StartSc; OSquare; OCurl] -> value_context g R.
Proof.
  intros P H Ht. destruct P as [->|[[C [->|[->| ->]]]|[->|[->|[->| ->]]]]].
  7, 8: exfalso; cbn in H, Ht; intuition congruence.
  3, 4: exfalso; destruct g; cbn in H, Ht; intuition congruence.
  all: destruct g; (split; [intros x Hx; cbn in Hx |- *; tauto|intros x Hx; cbn in Hx |- *; tauto]).
Qed.
Lemma place_quote g R t : cif2 g -> place g R -> In t R -> t = TripleQ \/ t = SingleQ -> quote_context g R.
Proof.
  intros C2 P H Ht. destruct P as [->|[[C [->|[->| ->]]]|[->|[->|[->| ->]]]]].
  7, 8: exfalso; cbn in H; intuition congruence.
  3, 4: right; destruct g; cbn; (split; [tauto|split; [tauto|intros x Hx; tauto]]).
  all: left; destruct g; (split; [intros x Hx; cbn in Hx |- *; tauto|intros x Hx; cbn in Hx |- *; tauto]).
Qed.

(** ** Each token *)
Definition picked (g : grammar) (R : list tok) (t : tok) (m s : str) : Prop := best_match g (accepted g R) (m ++ s) None = Some (t, m, s).
Lemma pick_alone g R t m s c x : place g R -> In t R -> In t (patterns g) -> m = c :: x -> matches g t (m ++ s) m s ->
  (forall t', In t' rivals -> In t' (patterns g) -> t' <> t -> t' <> End -> re_match (tok_re g t') (m ++ s) = None \/
     exists m' r', re_match (tok_re g t') (m ++ s) = Some (m', r') /\ length m' < length m) -> picked g R t m s.
Proof.
  intros P H Hp Em M K. apply best_longest; [now apply place_accepts|exact M|]. intros t' m' r' Hi Hn M'.
  destruct (place_rivals g R t' P Hi) as (H1 & H2 & _). unfold matches in M'.
  destruct (tok_eq_dec t' End) as [->|NE]; [apply end_match in M'; subst; cbn; lia|].
  destruct (K t' H2 H1 Hn NE) as [X|(a & b & X & L)]; rewrite X in M'; [discriminate|]. injection M' as <- <-. exact L.
Qed.
Ltac no_rival t' := intros t' Hr Hp Hn NE; cbn [app]; left; apply re_none;
  [destruct t'; try congruence; match goal with g : grammar |- _ => destruct g end; try reflexivity; cbn in Hr, Hp; intuition discriminate|].
Lemma pick_char g R t c s : place g R -> In t R -> In (t, c) [(OSquare, 91); (CSquare, 93); (OCurl, 123); (CCurl, 125)]%N -> cif2 g -> picked g R t [c] s.
Proof.
  intros P H Ht C2. apply (pick_alone g R t [c] s c []); auto.
  - destruct C2 as [->| ->]; cbn in Ht; repeat (destruct Ht as [E|Ht]; [injection E as <- <-; cbn; tauto|]); destruct Ht.
  - cbn in Ht. unfold matches. cbn [app]. repeat (destruct Ht as [E|Ht]; [injection E as <- <-; reflexivity|]); destruct Ht.
  - intros t' Hr Hp Hn NE. left. cbn [app]. cbn in Ht.
    destruct C2 as [->| ->]; repeat (destruct Ht as [E|Ht]; [injection E as <- <-; cbn in Hr; repeat (destruct Hr as [<-|Hr]; [try congruence; apply re_none; reflexivity|]); destruct Hr|]); destruct Ht.
Qed.
Lemma pick_comma g R s : place g R -> In Comma R -> g = GS2 -> picked g R Comma [44%N] s.
Proof.
  intros P H ->. apply (pick_alone GS2 R Comma [44%N] s 44%N []); auto.
  - cbn; tauto.
  - reflexivity.
  - intros t' Hr Hp Hn NE. left. cbn [app]. cbn in Hr; repeat (destruct Hr as [<-|Hr]; [try congruence; apply re_none; reflexivity|]); destruct Hr.
Qed.
Lemma pick_colon g s : cif2 g -> best_match g (accepted g [Colon]) (58%N :: s) None = Some (Colon, [58%N], s).
Proof.
  intros C2. apply best_longest.
  - destruct C2 as [->| ->]; cbn; tauto.
  - reflexivity.
  - intros t m r Hi Hn M. exfalso. unfold matches in M. destruct C2 as [->| ->]; cbn in Hi; repeat (destruct Hi as [<-|Hi]; [try congruence; rewrite re_none in M by reflexivity; discriminate|]); destruct Hi.
Qed.

(** Words: the first letter in either case. *)
Lemma lower_char_cases c d : lower_char c = d -> (97 <= d <= 122)%N -> c = d \/ (c = d - 32)%N.
Proof. unfold lower_char. intros H L. destruct ((65 <=? c) && (c <=? 90))%N eqn:E; lia. Qed.
Lemma word_first d w' m : lower m = d :: w' -> (97 <= d <= 122)%N -> exists c x, m = c :: x /\ (c = d \/ c = d - 32)%N /\ lower x = w'.
Proof.
  intros H L. destruct m as [|c x]; [discriminate|]. cbn in H. injection H as H1 H2. exists c, x. split; [reflexivity|]. split; [now apply lower_char_cases|exact H2].
Qed.
Lemma starts_lower_app w m s : lower m = w -> starts_with w (lower (m ++ s)) = true.
Proof.
  intros <-. unfold lower. rewrite map_app. induction (map lower_char m) as [|c l IH]; [reflexivity|]. cbn. now rewrite N.eqb_refl.
Qed.
Lemma word_cut w m s : lower m = lower w -> firstn (length w) (m ++ s) = m /\ skipn (length w) (m ++ s) = s.
Proof.
  intros E. assert (length w = length m) as -> by (rewrite <- (lower_length m), E, lower_length; reflexivity).
  rewrite firstn_app, Nat.sub_diag, firstn_all, app_nil_r, skipn_app, Nat.sub_diag, skipn_all. split; reflexivity.
Qed.
Lemma value1_reserved g s c x : s = c :: x -> reserved_start s = true -> ~ quote c -> re_match (tok_re g Value1) s = None.
Proof.
  intros -> H Hq. assert (re_match (re_plain g) (c :: x) = None) as HP by (rewrite re_plain_match, H; reflexivity).
  assert ((39 =? c)%N = false /\ (34 =? c)%N = false) as [E1 E2] by (unfold quote in Hq; lia).
  destruct g; cbn [tok_re]; rewrite ?re_alt, HP; try reflexivity.
  all: rewrite !re_none; try reflexivity; unfold re_quoted1, rseq; cbn [nullable first_ok is]; unfold sq, dq; cbn [nullable andb orb]; rewrite ?E1, ?E2; reflexivity.
Qed.
