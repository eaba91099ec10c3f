(** The lexer as a whole. *)
From Coq Require Import String Ascii List NArith PeanoNat Bool Lia.
From Coq Require Import DecimalString DecimalN DecimalFacts.
From Verif Require Import PyBase PyFacts RegexModel RegexFacts ScanFacts RegexSpec RegexProofs FlexProofs LexModel LexSpec LexProofs LexProofs2 LexProofs3.
Import ListNotations.
Open Scope nat_scope.

(** ** The first rule that matches *)
Lemma find_rule_first l s : Forall (fun kr => rule_ok (fst kr) (snd kr)) l ->
  match find_rule l s with
  | Some (k, m, t) => first_of (map fst l) s k m t
  | None => Forall (fun k => ~ some_text k s) (map fst l)
  end.
Proof.
  induction 1 as [|[k r] l H F IH]; cbn [find_rule map fst]; [constructor|]. cbn [fst snd] in H. specialize (H s).
  destruct (re_match r s) as [[m t]|].
  - destruct H as (Es & Sh & Lg). split; [now exists [], (map fst l)|]. now split.
  - destruct (find_rule l s) as [[[k' m'] t']|].
    + destruct IH as ((b & a & E & Fb) & R). split; [|exact R]. exists (k :: b), a. split; [cbn; now rewrite E|now constructor].
    + now constructor.
Qed.
Lemma first_unique ks s k t r k' t' r' : first_of ks s k t r -> first_of ks s k' t' r' -> k = k' /\ t = t' /\ r = r'.
Proof.
  intros ((b & a & E & Fb) & Es & Sh & Lg) ((b' & a' & E' & Fb') & Es' & Sh' & Lg').
  assert (k = k') as <-.
  { rewrite E in E'. rewrite Forall_forall in Fb, Fb'. destruct (split_cases _ _ _ _ _ _ E') as [(z & Ez)|[[_ Ek]|(z & Ez)]].
    - elim (Fb k'); [rewrite Ez; apply in_app_iff; right; now left|]. now exists t', r'.
    - exact Ek.
    - elim (Fb' k); [rewrite Ez; apply in_app_iff; right; now left|]. now exists t, r. }
  split; [reflexivity|]. pose proof (Lg _ _ Es' Sh') as A. pose proof (Lg' _ _ Es Sh) as B. apply app_len_inj; [congruence|lia].
Qed.
Lemma rules_kinds st : map fst (rules st) = kinds_at (s_depth st).
Proof. unfold rules. destruct (s_depth st); reflexivity. Qed.
Lemma gap_iff st c : ignored st c = true <-> gap (s_depth st) c.
Proof.
  unfold ignored, gap. rewrite !orb_true_iff, andb_true_iff, negb_true_iff, !N.eqb_eq, Nat.eqb_neq. reflexivity.
Qed.
Lemma first_kind ks s k t r : first_of ks s k t r -> In k ks /\ shape k t r.
Proof. intros ((b & a & -> & _) & _ & Sh & _). split; [apply in_app_iff; right; now left|exact Sh]. Qed.
Lemma shape_nonempty k t r : shape k t r -> t <> [].
Proof.
  destruct k; cbn [shape]; try contradiction.
  - intros (q & x & _ & -> & _). discriminate.
  - intros (q & x & _ & -> & _). discriminate.
  - intros [H _]. exact H.
  - intros (x & ds & -> & _). discriminate.
  - intros (x & ds & -> & _). discriminate.
  - intros (x & ds & -> & _). discriminate.
  - intros (m & e & -> & (a & b & -> & _) & _) E. apply app_eq_nil in E. destruct E as [E _]. apply app_eq_nil in E. now destruct E.
  - intros [<-|[]]; discriminate.
  - intros [<-|[]]; discriminate.
  - intros [<-|[]]; discriminate.
  - intros [<-|[]]; discriminate.
  - intros [<-|[]]; discriminate.
  - intros (x & j & -> & _) E. apply app_eq_nil in E. now destruct E.
  - intros (c & x & -> & _). discriminate.
  - intros (x & -> & _). discriminate.
  - intros (x & -> & _). discriminate.
  - intros [H _]. cbn [map In] in H. destruct H as [<-|[<-|[<-|[<-|[<-|[<-|[<-|[<-|[]]]]]]]]]; discriminate.
  - intros [<-|[]]; discriminate.
  - intros [<-|[]]; discriminate.
  - intros [<-|[]]; discriminate.
  - intros (a & b & c & d & sp & i & f & -> & _). discriminate.
  - cbn [fixed_texts map In]. intros [<-|[<-|[<-|[<-|[<-|[<-|[]]]]]]]; discriminate.
  - intros (x & -> & _). discriminate.
  - intros ->. discriminate.
  - intros [<-|[]]; discriminate.
  - intros [<-|[]]; discriminate.
Qed.

(** ** Numerals *)
Lemma digit_is_val c d : digit_is c d -> d = digit_val c.
Proof.
  unfold digit_is, digit_val. intros [[H ->]|[[H ->]|[H ->]]].
  - assert (range 48 57 c = true) as -> by now apply range_iff. reflexivity.
  - assert (range 48 57 c = false) as -> by (apply not_true_iff_false; rewrite range_iff; lia).
    assert (range 97 102 c = true) as -> by now apply range_iff. lia.
  - assert (range 48 57 c = false) as -> by (apply not_true_iff_false; rewrite range_iff; lia).
    assert (range 97 102 c = false) as -> by (apply not_true_iff_false; rewrite range_iff; lia). lia.
Qed.
Lemma numeral_int base t n : numeral base t n -> n = int_of base t.
Proof.
  induction 1 as [|t c n d H IH D L]; [reflexivity|]. unfold int_of. rewrite fold_left_app. cbn [fold_left]. fold (int_of base t). now rewrite <- IH, (digit_is_val c d D).
Qed.
Lemma int_numeral base t : Forall (fun c => exists d, digit_is c d /\ (d < base)%N) t -> numeral base t (int_of base t).
Proof.
  induction t as [|c t IH] using rev_ind; intros F; [constructor|]. apply Forall_app in F. destruct F as [F Fc]. inversion Fc as [|? ? (d & D & L) _]; subst.
  unfold int_of. rewrite fold_left_app. cbn [fold_left]. fold (int_of base t). rewrite <- (digit_is_val c d D). now constructor; [apply IH| |].
Qed.
Lemma fold_acc d : forall acc, fold_left (fun a c => a * 10 + digit_val c)%N (u (NilEmpty.string_of_uint d)) (N.pos acc) = N.pos (Pos.of_uint_acc d acc).
Proof.
  induction d as [|d IH|d IH|d IH|d IH|d IH|d IH|d IH|d IH|d IH|d IH]; intros acc; cbn [NilEmpty.string_of_uint u Pos.of_uint_acc]; [reflexivity|..];
    cbn [fold_left]; rewrite <- IH; f_equal; match goal with |- context [digit_val ?c] => let v := eval vm_compute in (digit_val c) in change (digit_val c) with v end; lia.
Qed.
Lemma fold_uint d : int_of 10 (u (NilEmpty.string_of_uint d)) = N.of_uint d.
Proof.
  unfold int_of, N.of_uint. induction d as [|d IH|d IH|d IH|d IH|d IH|d IH|d IH|d IH|d IH|d IH]; cbn [NilEmpty.string_of_uint u Pos.of_uint]; [reflexivity|exact IH|..];
    cbn [fold_left]; rewrite <- fold_acc; f_equal.
Qed.
Lemma uint_digits d : Forall (fun c => (48 <= c <= 57)%N) (u (NilEmpty.string_of_uint d)).
Proof.
  induction d as [|d IH|d IH|d IH|d IH|d IH|d IH|d IH|d IH|d IH|d IH]; cbn [NilEmpty.string_of_uint u]; [constructor|..]; (constructor; [vm_compute; split; discriminate|exact IH]).
Qed.
Lemma repr_decimal n : decimal (repr_int n) n.
Proof.
  unfold decimal, repr_int. split; [|].
  - rewrite <- (Unsigned.of_to n) at 2. rewrite <- fold_uint. apply int_numeral. eapply Forall_impl; [|apply uint_digits].
    intros c H. cbv beta in H. exists (c - 48)%N. split; [left; now split|lia].
  - pose proof (Unsigned.to_of (N.to_uint n)) as E. rewrite Unsigned.of_to in E. rewrite E. unfold Decimal.unorm.
    destruct (Decimal.nzhead (N.to_uint n)) as [|z|z|z|z|z|z|z|z|z|z] eqn:Z; cbn [NilEmpty.string_of_uint u]; (split; [discriminate|]); try (right; vm_compute; discriminate).
    + now left.
    + exfalso. exact (nzhead_nonzero _ _ Z).
Qed.
Lemma digit10 c d : digit_is c d -> (d < 10)%N -> c = (d + 48)%N.
Proof. unfold digit_is. intros [[H ->]|[[H ->]|[H ->]]] L; lia. Qed.
Lemma snoc_inv {A} (l : list A) : l = [] \/ exists t c, l = t ++ [c].
Proof. destruct l as [|x l] using rev_ind; [now left|right; now exists l, x]. Qed.
Lemma numeral_snoc_inv base t c n : numeral base (t ++ [c]) n -> exists m d, n = (m * base + d)%N /\ numeral base t m /\ digit_is c d /\ (d < base)%N.
Proof.
  intros H. inversion H as [E|t' c' m d Hm D L E En]; [destruct t; discriminate|]. apply app_inj_tail in E. destruct E as [-> ->]. now exists m, d.
Qed.
Lemma decimal_pos t n : numeral 10 t n -> t <> [] -> hd_error t <> Some 48%N -> (0 < n)%N.
Proof.
  revert n. induction t as [|c t IH] using rev_ind; intros n H N0 Hd; [now elim N0|]. apply numeral_snoc_inv in H. destruct H as (m & d & -> & Hm & D & L).
  destruct t as [|x t].
  - cbn in Hd. apply digit10 in D; [|exact L]. assert (d <> 0%N) by (intros ->; apply Hd; now subst). lia.
  - assert (0 < m)%N by (apply IH; [exact Hm|discriminate|exact Hd]). lia.
Qed.
Lemma decimal_unique v v' n : decimal v n -> decimal v' n -> v = v'.
Proof.
  assert (forall v v' n, numeral 10 v n -> numeral 10 v' n -> hd_error v <> Some 48%N -> hd_error v' <> Some 48%N -> v = v') as Q.
  { clear. induction v as [|c v IH] using rev_ind; intros v' n H H' Z Z'.
    - destruct v' as [|y v']; [reflexivity|]. apply numeral_int in H. cbn in H. subst n. apply decimal_pos in H'; [lia|discriminate|exact Z'].
    - destruct (snoc_inv v') as [->|(w & c' & ->)].
      + apply numeral_int in H'. cbn in H'. subst n. apply decimal_pos in H; [lia|destruct v; discriminate|exact Z].
      + apply numeral_snoc_inv in H, H'. destruct H as (m & d & -> & Hm & D & L), H' as (m' & d' & E & Hm' & D' & L').
        assert (m = m' /\ d = d') as [<- <-] by lia. apply digit10 in D, D'; try assumption. subst c c'. f_equal. apply (IH w m Hm Hm').
        * destruct v; [discriminate|exact Z]. * destruct w; [discriminate|exact Z']. }
  intros (H & N0 & Z) (H' & N0' & Z'). destruct Z as [->|Z], Z' as [->|Z'].
  - reflexivity.
  - apply numeral_int in H. cbn in H. subst n. apply decimal_pos in H'; [lia|exact N0'|exact Z'].
  - apply numeral_int in H'. cbn in H'. subst n. apply decimal_pos in H; [lia|exact N0|exact Z].
  - exact (Q v v' n H H' Z Z').
Qed.

(** ** Reserved words *)
Definition all_words : list (str * kind) := flat_map (fun kw => map (fun w => (u w, fst kw)) (snd kw)) words.
Lemma is_word_all k t : is_word k t <-> In (t, k) all_words.
Proof.
  unfold is_word, all_words. rewrite in_flat_map. split.
  - intros (ws & I & J). exists (k, ws). split; [exact I|]. apply in_map_iff in J. destruct J as (w & <- & J). apply in_map_iff. now exists w.
  - intros ([k' ws] & I & J). apply in_map_iff in J. destruct J as (w & E & J). cbn [fst snd] in *. injection E as <- <-. exists ws. split; [exact I|]. apply in_map_iff. now exists w.
Qed.
Lemma keyword_In l w : NoDup (map fst l) -> (forall k, In (w, k) l -> keyword l w = k) /\ ((forall k, ~ In (w, k) l) -> keyword l w = ID).
Proof.
  induction l as [|[x k] l IH]; cbn [map fst keyword]; intros ND; [split; [intros k []|reflexivity]|].
  inversion ND as [|? ? Nx ND']; subst. destruct (IH ND') as [A B]. destruct (str_eqb_spec x w) as [->|Nw].
  - split; [|intros H; elim (H k); now left]. intros k' [E|I]; [now injection E as ->|]. elim Nx. apply in_map_iff. now exists (w, k').
  - split; [intros k' [E|I]; [injection E as ? ?; contradiction|now apply A]|]. intros H. apply B. intros k' I. apply (H k'). now right.
Qed.
Definition kind_eq_dec (a b : kind) : {a = b} + {a <> b}.
Proof. decide equality. apply N.eq_dec. Defined.
Definition pair_eqb (x y : str * kind) : bool := str_eqb (fst x) (fst y) && if kind_eq_dec (snd x) (snd y) then true else false.
Lemma pair_eqb_eq x y : pair_eqb x y = true <-> x = y.
Proof.
  destruct x as [a k], y as [b k']. unfold pair_eqb. cbn [fst snd]. rewrite andb_true_iff. destruct (str_eqb_spec a b), (kind_eq_dec k k'); split; intros H; try (now destruct H); try (injection H as ? ?; contradiction); now subst.
Qed.
Lemma incl_check l l' : forallb (fun x => existsb (pair_eqb x) l') l = true -> incl l l'.
Proof. intros H x I. rewrite forallb_forall in H. specialize (H x I). apply existsb_exists in H. destruct H as (y & J & E). apply pair_eqb_eq in E. now subst. Qed.
Fixpoint nodupb (l : list str) : bool := match l with [] => true | x :: l' => negb (existsb (str_eqb x) l') && nodupb l' end.
Lemma nodupb_ok l : nodupb l = true -> NoDup l.
Proof.
  induction l as [|x l IH]; cbn [nodupb]; [constructor|]. rewrite andb_true_iff, negb_true_iff. intros [A B]. constructor; [|now apply IH].
  intros I. assert (existsb (str_eqb x) l = true) by (apply existsb_exists; exists x; split; [exact I|]; now destruct (str_eqb_spec x x)). congruence.
Qed.
Lemma reserved_words k t : In (t, k) reserved <-> is_word k t.
Proof. rewrite is_word_all. split; apply (fun H => incl_check _ _ H (t, k)); vm_compute; reflexivity. Qed.
Lemma keyword_spec t : (forall k, is_word k t -> keyword reserved t = k) /\ ((forall k, ~ is_word k t) -> keyword reserved t = ID).
Proof.
  destruct (keyword_In reserved t) as [A B]; [apply nodupb_ok; vm_compute; reflexivity|]. split.
  - intros k H. apply A. now apply reserved_words.
  - intros H. apply B. intros k I. apply (H k). now apply reserved_words.
Qed.
Lemma word_or_not t : (exists k, is_word k t) \/ (forall k, ~ is_word k t).
Proof.
  destruct (existsb (fun x => str_eqb t (fst x)) all_words) eqn:E.
  - left. apply existsb_exists in E. destruct E as ([x k] & I & E). cbn [fst] in E. destruct (str_eqb_spec t x) as [->|]; [|discriminate]. exists k. now apply is_word_all.
  - right. intros k H. apply is_word_all in H. assert (existsb (fun x => str_eqb t (fst x)) all_words = true); [|congruence].
    apply existsb_exists. exists (t, k). split; [exact H|]. cbn [fst]. now destruct (str_eqb_spec t t).
Qed.

(** ** What a rule passes on *)
Definition out (o : option (kind * str)) : list (kind * str) := match o with Some x => [x] | None => [] end.
Lemma digs_lt (b : N) (P : N -> Prop) ds : (forall c, P c -> exists d, digit_is c d /\ (d < b)%N) -> some_of P ds -> Forall (fun c => exists d, digit_is c d /\ (d < b)%N) ds.
Proof. intros H [_ F]. eapply Forall_impl; [exact H|exact F]. Qed.
Lemma act_gives k t rest st : shape k t rest -> gives k t (out (snd (act k t st))).
Proof.
  intros Sh. destruct k; try contradiction; cbn [act snd out]; try (apply gives_same; intros H; cbn in H; intuition discriminate).
  - destruct Sh as (x & ds & -> & _ & H). cbn [skipn]. apply (gives_bin _ _ _ _ (int_of 2 ds)); [|apply repr_decimal]. apply int_numeral.
    eapply digs_lt; [|exact H]. intros c Hc. cbv beta in Hc. exists (c - 48)%N. split; [left; split; [lia|reflexivity]|lia].
  - destruct Sh as (x & ds & -> & _ & H). cbn [skipn]. apply (gives_hex _ _ _ _ (int_of 16 ds)); [|apply repr_decimal]. apply int_numeral.
    eapply digs_lt; [|exact H]. intros c (d & D). exists d. split; [exact D|]. unfold digit_is in D. lia.
  - destruct Sh as (x & ds & -> & _ & H). cbn [skipn]. apply (gives_oct _ _ _ _ (int_of 8 ds)); [|apply repr_decimal]. apply int_numeral.
    eapply digs_lt; [|exact H]. intros c Hc. cbv beta in Hc. exists (c - 48)%N. split; [left; split; [lia|reflexivity]|lia].
  - destruct (keyword_spec t) as [A B]. destruct (word_or_not t) as [(k & W)|N0].
    + rewrite (A k W). now apply gives_word. + rewrite (B N0). now apply gives_id.
  - apply gives_comment.
  - apply gives_escape.
Qed.
Lemma gives_act k t o st : gives k t o -> In k (CLOSE_PAREN :: kinds) -> o = out (snd (act k t st)).
Proof.
  intros G I. destruct G as [k t W|t W|x y ds v n H D|x y ds v n H D|x y ds v n H D|t|t|k t H]; cbn [act snd out skipn]; try reflexivity.
  - destruct (keyword_spec t) as [A _]. now rewrite (A k W).
  - destruct (keyword_spec t) as [_ B]. now rewrite (B W).
  - apply numeral_int in H. subst n. now rewrite (decimal_unique _ _ _ D (repr_decimal _)).
  - apply numeral_int in H. subst n. now rewrite (decimal_unique _ _ _ D (repr_decimal _)).
  - apply numeral_int in H. subst n. now rewrite (decimal_unique _ _ _ D (repr_decimal _)).
  - destruct k; try reflexivity; try (elim H; cbn; tauto).
Qed.
Lemma act_depth k t st : s_depth (fst (act k t st)) = depth_after k (s_depth st).
Proof. destruct k; cbn [act fst s_depth depth_after]; try reflexivity. lia. Qed.

(** ** The whole text *)
Lemma push_ret o r ts st : push o r = Ret (ts, st) -> exists ts', r = Ret (ts', st) /\ ts = out o ++ ts'.
Proof. unfold push. destruct r as [[ts' st']|]; [|discriminate]. cbn. intros E. injection E as <- <-. exists ts'. split; [reflexivity|]. now destruct o. Qed.
Lemma lex_sound n : forall st s ts st', lex_go n st s = Ret (ts, st') -> reads (s_depth st) s ts (s_depth st').
Proof.
  induction n as [|n IH]; intros st s ts st' E; [discriminate|]. cbn [lex_go] in E. destruct s as [|c s].
  - injection E as <- <-. constructor.
  - destruct (ignored st c) eqn:G.
    + apply reads_gap; [now apply gap_iff|exact (IH _ _ _ _ E)].
    + pose proof (find_rule_first (rules st) (c :: s) (rules_ok st)) as F. rewrite rules_kinds in F.
      assert (~ gap (s_depth st) c) as NG by (rewrite <- gap_iff, G; discriminate).
      destruct (find_rule (rules st) (c :: s)) as [[[k m] t]|].
      * apply push_ret in E. destruct E as (ts' & E & ->). destruct (first_kind _ _ _ _ _ F) as [_ Sh].
        apply (reads_token _ _ k m t); [intros c' s' Ec; injection Ec as <- <-; exact NG|exact F|exact (act_gives _ _ _ _ Sh)|].
        rewrite <- (act_depth k m). exact (IH _ _ _ _ E).
      * destruct (existsb (N.eqb c) literals) eqn:El; [|discriminate]. apply push_ret in E. destruct E as (ts' & E & ->).
        cbn [out app]. apply reads_single; [exact NG|exact F| |exact (IH _ _ _ _ E)].
        apply existsb_exists in El. destruct El as (y & I & Ey). apply N.eqb_eq in Ey. now subst.
Qed.
Lemma kinds_at_incl d k : In k (kinds_at d) -> In k (CLOSE_PAREN :: kinds).
Proof. destruct d; cbn [kinds_at]; [intros H; now right|]. intros [<-|H]; [right; right; now left|exact H]. Qed.
Lemma lex_complete d s ts d' : reads d s ts d' -> forall n st, s_depth st = d -> length s < n -> exists st', lex_go n st s = Ret (ts, st') /\ s_depth st' = d'.
Proof.
  induction 1 as [d|d c s ts d' G R IH|d s k t rest o ts d' NG F Gv R IH|d c s ts d' NG F Sg R IH]; intros n st Ed Hn.
  - destruct n as [|n]; [cbn in Hn; lia|]. exists st. now split.
  - destruct n as [|n]; [cbn in Hn; lia|]. cbn [lex_go]. rewrite <- Ed in G. apply gap_iff in G. rewrite G. apply IH; [exact Ed|cbn in Hn; lia].
  - destruct (first_kind _ _ _ _ _ F) as [Ik Sh]. pose proof F as (_ & Es & _ & _). pose proof (shape_nonempty _ _ _ Sh) as Ne.
    destruct n as [|n]; [lia|]. destruct s as [|c s]; [destruct t; [now elim Ne|discriminate]|]. cbn [lex_go].
    destruct (ignored st c) eqn:G; [apply gap_iff in G; rewrite Ed in G; elim (NG c s eq_refl G)|].
    pose proof (find_rule_first (rules st) (c :: s) (rules_ok st)) as F'. rewrite rules_kinds, Ed in F'.
    destruct (find_rule (rules st) (c :: s)) as [[[k' m'] t']|].
    + destruct (first_unique _ _ _ _ _ _ _ _ F F') as (<- & <- & <-).
      rewrite (gives_act k t o st Gv (kinds_at_incl _ _ Ik)). destruct (IH n (fst (act k t st))) as (st' & E & Ed').
      * now rewrite act_depth, Ed.
      * rewrite Es, app_length in Hn. destruct t; [now elim Ne|]. cbn in Hn. lia.
      * exists st'. split; [|exact Ed']. unfold push. rewrite E. cbn [obind fst snd]. f_equal. f_equal. now destruct (snd (act k t st)).
    + rewrite Forall_forall in F'. elim (F' k Ik). now exists t, rest.
  - destruct n as [|n]; [cbn in Hn; lia|]. cbn [lex_go]. destruct (ignored st c) eqn:G; [apply gap_iff in G; rewrite Ed in G; elim (NG G)|].
    pose proof (find_rule_first (rules st) (c :: s) (rules_ok st)) as F'. rewrite rules_kinds, Ed in F'.
    destruct (find_rule (rules st) (c :: s)) as [[[k' m'] t']|].
    + destruct (first_kind _ _ _ _ _ F') as [Ik Sh]. destruct F' as (_ & Es & _). rewrite Forall_forall in F. elim (F k' Ik). now exists m', t'.
    + assert (existsb (N.eqb c) literals = true) as -> by (apply existsb_exists; exists c; split; [exact Sg|apply N.eqb_refl]).
      destruct (IH n st Ed) as (st' & E & Ed'); [cbn in Hn; lia|]. exists st'. split; [|exact Ed']. rewrite E. reflexivity.
Qed.
Lemma lex_total n : forall st s, length s < n -> (exists x, lex_go n st s = Ret x) \/ lex_go n st s = Raise SyntaxErr.
Proof.
  induction n as [|n IH]; intros st s Hn; [lia|]. cbn [lex_go]. destruct s as [|c s]; [left; eexists; reflexivity|]. cbn in Hn.
  assert (forall o st' s', length s' < n -> (exists x, push o (lex_go n st' s') = Ret x) \/ push o (lex_go n st' s') = Raise SyntaxErr) as Q.
  { intros o st' s' H. destruct (IH st' s' H) as [([ts st2] & ->)| ->]; [left; eexists; reflexivity|now right]. }
  destruct (ignored st c); [apply IH; lia|].
  pose proof (find_rule_first (rules st) (c :: s) (rules_ok st)) as F.
  destruct (find_rule (rules st) (c :: s)) as [[[k m] t]|].
  - apply Q. destruct (first_kind _ _ _ _ _ F) as [_ Sh]. destruct F as (_ & Es & _). apply shape_nonempty in Sh.
    apply (f_equal (@length N)) in Es. rewrite app_length in Es. destruct m; [now elim Sh|]. cbn in Es. lia.
  - destruct (existsb (N.eqb c) literals); [apply Q; lia|now right].
Qed.
Theorem lex_exact st s ts d : (exists st', lex st s = Ret (ts, st') /\ s_depth st' = d) <-> reads (s_depth st) s ts d.
Proof.
  split.
  - intros (st' & E & <-). exact (lex_sound _ _ _ _ _ E).
  - intros R. apply (lex_complete _ _ _ _ R); [reflexivity|lia].
Qed.
Theorem lex_ends st s : (exists x, lex st s = Ret x) \/ lex st s = Raise SyntaxErr.
Proof. apply lex_total. lia. Qed.
