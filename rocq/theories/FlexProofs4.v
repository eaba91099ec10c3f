(** The tokens of the compiled scanner are those of the other one. *)
From Coq Require Import String Ascii List NArith PeanoNat Bool Lia.
From Verif Require Import PyBase PyFacts RegexModel RegexFacts RegexSpec RegexProofs ScanModel ScanFacts ScanSpec ScanProofs ScanProofs2 ScanProofs3 ReadModel ParseModel FlexModel FlexSpec FlexProofs FlexProofs2 FlexProofs3.
Import ListNotations.
Open Scope nat_scope.

Lemma best_app rs1 rs2 s best : best_rule (rs1 ++ rs2) s best = best_rule rs2 s (best_rule rs1 s best).
Proof. revert best. induction rs1 as [|ru rs1 IH]; intros best; [reflexivity|]. cbn [app best_rule]. apply IH. Qed.
Definition names (m : str) : Prop := Forall (fun c => name_char1 c = true) m.

(** ** Rules after the words *)
Definition value_rule : rule := Rule (RSeq (none_of (10 :: 13 :: 9 :: 32 :: 0 :: u """#$'_[]")%N) (RStar (RChr true_nonblank))) None (ATok Value1).
Definition value_start (c : N) : Prop := name_char1 c = true /\ ~ In c (u """#$'_[]").
Lemma value_match c x r : value_start c -> names x -> ends_name r -> rule_match value_rule (c :: x ++ r) = Some (S (length x), c :: x, r).
Proof.
  intros [C1 C2] X R. unfold rule_match. cbn [r_trail r_re value_rule]. unfold none_of. rewrite longest_cons.
  assert (negb (existsb (N.eqb c) (10 :: 13 :: 9 :: 32 :: 0 :: u """#$'_[]")%N) = true) as ->.
  { apply negb_true_iff. apply not_true_iff_false. intros K. apply existsb_exists in K. destruct K as (y & I & E). apply N.eqb_eq in E. subst y. apply name_char1_only in C1.
    do 5 (destruct I as [<-|I]; [lia|]). contradiction. }
  rewrite longest_star. rewrite (span_prefix true_nonblank x r); [reflexivity|exact X|exact R].
Qed.
Lemma first_none (ru : rule) c s : nullable (full ru) = false -> first_ok (full ru) c = false -> rule_match ru (c :: s) = None.
Proof. apply rule_none. Qed.
Lemma tail_value c x r best : value_start c -> names x -> ends_name r ->
  best_rule (skipn 7 initial_rules) (c :: x ++ r) best =
  match best with
  | Some (a, n, m1, r1) => if n <? S (length x) then Some (ATok Value1, S (length x), c :: x, r) else best
  | None => Some (ATok Value1, S (length x), c :: x, r)
  end.
Proof.
  intros V X R. pose proof (value_match c x r V X R) as M. destruct V as [C1 C2]. pose proof (name_char1_only c C1) as C3.
  assert (forall k, (k < 33)%N -> (k =? c)%N = false /\ (c =? k)%N = false) as Lo by (intros k Hk; split; apply N.eqb_neq; lia).
  assert (forall k, In k (u """#$'_[]") -> (k =? c)%N = false /\ (c =? k)%N = false) as Qu.
  { intros k Hk. split; apply N.eqb_neq; intros ->; contradiction. }
  assert (forall ru, In ru [comment_rule; eol_rule; startsc_rule; Rule (rseq [is 39; RStar (RChr true_char); is 39]) None (AQuote 39); Rule (rseq [is 34; RStar (RChr true_char); is 34]) None (AQuote 34); newline_rule] ->
    rule_match ru (c :: x ++ r) = None) as No.
  { pose proof (Lo 9%N eq_refl) as [L9 L9']. pose proof (Lo 10%N eq_refl) as [L10 L10']. pose proof (Lo 13%N eq_refl) as [L13 L13']. pose proof (Lo 32%N eq_refl) as [L32 L32'].
    pose proof (Qu 35%N ltac:(vm_compute; tauto)) as [Q35 _]. pose proof (Qu 34%N ltac:(vm_compute; tauto)) as [Q34 _]. pose proof (Qu 39%N ltac:(vm_compute; tauto)) as [Q39 _].
    intros ru H. cbn [In] in H. decompose [or] H; clear H; subst; try contradiction; (apply rule_none; [reflexivity|];
      cbn [full r_trail r_re comment_rule eol_rule startsc_rule newline_rule first_ok nullable rseq fx_comment fx_end_of_line fx_spaces fx_eol fx_eols ropt rplus existsb orb andb is one_of none_of];
      rewrite ?L9, ?L9', ?L10, ?L10', ?L13, ?L13', ?L32, ?L32', ?Q34, ?Q35, ?Q39; reflexivity). }
  assert (rule_match spaces_rule (c :: x ++ r) = Some (0, [], c :: x ++ r)) as Sp.
  { rewrite spaces_match. cbn [span]. assert (blank c = false) as ->; [|reflexivity]. unfold blank. cbn [existsb]. rewrite (proj2 (Lo 9%N eq_refl)), (proj2 (Lo 32%N eq_refl)). reflexivity. }
  assert (rule_match dot_rule (c :: x ++ r) = Some (1, [c], x ++ r)) as Dt by (apply dot_match; lia).
  unfold initial_rules. cbn [skipn]. fold spaces_rule comment_rule eol_rule startsc_rule value_rule newline_rule dot_rule.
  destruct best as [[[[a n] m1] r1]|].
  - rewrite (best_less _ _ _ _ _ _ _ _ _ _ Sp) by lia. rewrite !best_no by (apply No; cbn; tauto). destruct (n <? S (length x)) eqn:E.
    + apply Nat.ltb_lt in E. rewrite (best_more _ _ _ _ _ _ _ _ _ _ M E). rewrite !best_no by (apply No; cbn; tauto). rewrite (best_less _ _ _ _ _ _ _ _ _ _ Dt) by lia. reflexivity.
    + apply Nat.ltb_ge in E. rewrite (best_less _ _ _ _ _ _ _ _ _ _ M E). rewrite !best_no by (apply No; cbn; tauto). rewrite (best_less _ _ _ _ _ _ _ _ _ _ Dt) by lia. reflexivity.
  - rewrite (best_new _ _ _ _ _ _ Sp). rewrite !best_no by (apply No; cbn; tauto). rewrite (best_more _ _ _ _ _ _ _ _ _ _ M) by lia. rewrite !best_no by (apply No; cbn; tauto). rewrite (best_less _ _ _ _ _ _ _ _ _ _ Dt) by lia. reflexivity.
Qed.

(** ** The words *)
Lemma word_match w a s : Forall (fun c => word_char c = true) w ->
  rule_match (Rule (word_ci w) None a) s = if starts_with (lower w) (lower s) then Some (length (firstn (length w) s), firstn (length w) s, skipn (length w) s) else None.
Proof. intros H. unfold rule_match. cbn [r_trail r_re]. rewrite longest_word by exact H. now destruct (starts_with _ _). Qed.
Lemma word_plus_match w a s : Forall (fun c => word_char c = true) w ->
  rule_match (Rule (RSeq (word_ci w) (rplus (RChr true_nonblank))) None a) s =
  if starts_with (lower w) (lower s)
  then match span name_char1 (skipn (length w) s) with ([], _) => None | (x, y) => Some (length (firstn (length w) s ++ x), firstn (length w) s ++ x, y) end else None.
Proof.
  intros H. unfold rule_match. cbn [r_trail r_re]. rewrite longest_word_plus by exact H. destruct (starts_with _ _); [|reflexivity]. change true_nonblank with name_char1.
  destruct (span name_char1 (skipn (length w) s)) as [[|c x] y]; reflexivity.
Qed.
Lemma starts_with_split w s : starts_with w s = true -> exists z, s = w ++ z.
Proof.
  revert s. induction w as [|c w IH]; intros s H; [now exists s|]. destruct s as [|d s]; [discriminate|]. cbn in H. apply andb_prop in H. destruct H as [H1 H2]. apply N.eqb_eq in H1. subst d.
  destruct (IH s H2) as (z & ->). now exists z.
Qed.
Definition head_rules : list rule := firstn 7 initial_rules.
Lemma lower_word w : lower (u w) = lower (u w). Proof. reflexivity. Qed.
(** Which of the words a text starts with decides. *)
Definition sw (w : string) (s : str) : bool := starts_with (u w) (lower s).
Lemma head_rules_eq s : first_is 95 s = false ->
  best_rule head_rules s None =
  (let f := firstn 5 s in let k := skipn 5 s in
   let b1 := if sw "loop_" s then Some (ATok LBlock, length f, f, k) else None in
   let b2 := best_rule [Rule (word_ci (u "GLOBAL_")) None (ATok Global)] s b1 in
   let b3 := best_rule [Rule (word_ci (u "STOP_")) None (ATok Stop)] s b2 in
   best_rule [Rule (RSeq (word_ci (u "SAVE_")) (rplus (RChr true_nonblank))) None (ATok SaveHeading); Rule (word_ci (u "SAVE_")) None (ATok SaveEnd); Rule (RSeq (word_ci (u "DATA_")) (rplus (RChr true_nonblank))) None (ATok DataHeading)] s b3).
Proof.
  intros F. cbv zeta. unfold head_rules, initial_rules. cbn [firstn].
  assert (forall rs best, best_rule (rs ++ [Rule (RSeq (is 95) (rplus (RChr true_nonblank))) None (ATok DataName)]) s best = best_rule rs s best) as L.
  { intros rs best. rewrite best_app. rewrite best_no; [reflexivity|]. destruct s as [|c s]; [reflexivity|]. apply rule_none; [reflexivity|]. cbn [first_is] in F. cbn [full r_trail r_re first_ok nullable is andb orb]. rewrite N.eqb_sym, F. reflexivity. }
  pose proof (L [Rule (word_ci (u "LOOP_")) None (ATok LBlock); Rule (word_ci (u "GLOBAL_")) None (ATok Global); Rule (word_ci (u "STOP_")) None (ATok Stop);
    Rule (RSeq (word_ci (u "SAVE_")) (rplus (RChr true_nonblank))) None (ATok SaveHeading); Rule (word_ci (u "SAVE_")) None (ATok SaveEnd); Rule (RSeq (word_ci (u "DATA_")) (rplus (RChr true_nonblank))) None (ATok DataHeading)] None) as L1.
  cbn [app] in L1. rewrite L1. clear L L1.
  cbn [best_rule r_act]. rewrite (word_match (u "LOOP_")) by words. change (lower (u "LOOP_")) with (u "loop_"). change (length (u "LOOP_")) with 5. fold (sw "loop_" s). destruct (sw "loop_" s); reflexivity.
Qed.

Ltac word_facts H s := let z := fresh "z" in let E := fresh "Ez" in destruct (starts_with_split _ _ H) as (z & E).
Lemma other_word (w1 w2 : string) s : sw w1 s = true -> (forall z, starts_with (u w2) (u w1 ++ z) = false) -> sw w2 s = false.
Proof. unfold sw. intros H K. destruct (starts_with_split _ _ H) as (z & ->). apply K. Qed.
Lemma word_first (w : string) c k s : sw w (c :: s) = true -> u w = k :: tl (u w) -> lower_char c = k.
Proof. unfold sw. intros H E. rewrite E in H. cbn in H. apply andb_prop in H. destruct H as [H _]. apply N.eqb_eq in H. now symmetry. Qed.
(** A text that is one of the words, or starts with one, starts with a letter. *)
Lemma letter_start c k : lower_char c = k -> (97 <= k <= 122)%N -> value_start c /\ c <> 95%N.
Proof.
  intros E K. assert ((65 <= c <= 90)%N \/ (97 <= c <= 122)%N) as C.
  { unfold lower_char in E. destruct ((65 <=? c) && (c <=? 90))%N eqn:B; [left; apply andb_prop in B; destruct B as [B1 B2]; apply N.leb_le in B1, B2; lia|right; lia]. }
  split; [split|].
  - apply name_char1_range. lia.
  - intros I. vm_compute in I. decompose [or] I; try contradiction; lia.
  - lia.
Qed.
Lemma no_word (W w : string) a rs s best : Forall (fun c => word_char c = true) (u W) -> lower (u W) = u w -> sw w s = false -> best_rule (Rule (word_ci (u W)) None a :: rs) s best = best_rule rs s best.
Proof. intros A B C. apply best_no. rewrite word_match by exact A. rewrite B. unfold sw in C. now rewrite C. Qed.
Lemma no_word_plus (W w : string) a rs s best : Forall (fun c => word_char c = true) (u W) -> lower (u W) = u w -> sw w s = false ->
  best_rule (Rule (RSeq (word_ci (u W)) (rplus (RChr true_nonblank))) None a :: rs) s best = best_rule rs s best.
Proof. intros A B C. apply best_no. rewrite word_plus_match by exact A. rewrite B. unfold sw in C. now rewrite C. Qed.
Lemma head_none s : first_is 95 s = false -> sw "loop_" s = false -> reserved_start s = false -> best_rule head_rules s None = None.
Proof.
  intros F L R. rewrite head_rules_eq by exact F. cbv zeta. rewrite L. unfold reserved_start in R.
  apply orb_false_iff in R. destruct R as [R R4]. apply orb_false_iff in R. destruct R as [R R3]. apply orb_false_iff in R. destruct R as [R1 R2].
  now rewrite (no_word "GLOBAL_" "global_"), (no_word "STOP_" "stop_"), (no_word_plus "SAVE_" "save_"), (no_word "SAVE_" "save_"), (no_word_plus "DATA_" "data_") by (words || reflexivity || assumption).
Qed.
Lemma head_loop s : first_is 95 s = false -> sw "loop_" s = true -> best_rule head_rules s None = Some (ATok LBlock, length (firstn 5 s), firstn 5 s, skipn 5 s).
Proof.
  intros F L. rewrite head_rules_eq by exact F. cbv zeta. rewrite L. 
  assert (sw "global_" s = false /\ sw "stop_" s = false /\ sw "save_" s = false /\ sw "data_" s = false) as (A & B & C & D)
    by (repeat split; apply (other_word "loop_"); try exact L; intros z; reflexivity).
  now rewrite (no_word "GLOBAL_" "global_"), (no_word "STOP_" "stop_"), (no_word_plus "SAVE_" "save_"), (no_word "SAVE_" "save_"), (no_word_plus "DATA_" "data_") by (words || reflexivity || assumption).
Qed.
Lemma head_save s : first_is 95 s = false -> sw "save_" s = true ->
  best_rule head_rules s None = match span name_char1 (skipn 5 s) with
                                | ([], _) => Some (ATok SaveEnd, length (firstn 5 s), firstn 5 s, skipn 5 s)
                                | (x, y) => Some (ATok SaveHeading, length (firstn 5 s ++ x), firstn 5 s ++ x, y)
                                end.
Proof.
  intros F L. rewrite head_rules_eq by exact F. cbv zeta.
  assert (sw "loop_" s = false /\ sw "global_" s = false /\ sw "stop_" s = false /\ sw "data_" s = false) as (A & B & C & D)
    by (repeat split; apply (other_word "save_"); try exact L; intros z; reflexivity).
  rewrite A. rewrite (no_word "GLOBAL_" "global_"), (no_word "STOP_" "stop_") by (words || reflexivity || assumption). cbn [best_rule r_act].
  rewrite (word_plus_match (u "SAVE_")), (word_match (u "SAVE_")), (word_plus_match (u "DATA_")) by words. change (lower (u "SAVE_")) with (u "save_"). change (lower (u "DATA_")) with (u "data_"). unfold sw in L, D. rewrite L, D. change (length (u "SAVE_")) with 5.
  destruct (span name_char1 (skipn 5 s)) as [[|c x] y]; [reflexivity|]. rewrite app_length. cbn [length].
  assert (length (firstn 5 s) + S (length x) <? length (firstn 5 s) = false) as -> by (apply Nat.ltb_ge; lia). reflexivity.
Qed.
Lemma head_data s : first_is 95 s = false -> sw "data_" s = true ->
  best_rule head_rules s None = match span name_char1 (skipn 5 s) with
                                | ([], _) => None
                                | (x, y) => Some (ATok DataHeading, length (firstn 5 s ++ x), firstn 5 s ++ x, y)
                                end.
Proof.
  intros F L. rewrite head_rules_eq by exact F. cbv zeta.
  assert (sw "loop_" s = false /\ sw "global_" s = false /\ sw "stop_" s = false /\ sw "save_" s = false) as (A & B & C & D)
    by (repeat split; apply (other_word "data_"); try exact L; intros z; reflexivity).
  rewrite A. rewrite (no_word "GLOBAL_" "global_"), (no_word "STOP_" "stop_"), (no_word_plus "SAVE_" "save_"), (no_word "SAVE_" "save_") by (words || reflexivity || assumption). cbn [best_rule r_act].
  rewrite (word_plus_match (u "DATA_")) by words. change (lower (u "DATA_")) with (u "data_"). unfold sw in L. rewrite L. change (length (u "DATA_")) with 5.
  destruct (span name_char1 (skipn 5 s)) as [[|c x] y]; reflexivity.
Qed.
Lemma rules_split s best : best_rule initial_rules s best = best_rule (skipn 7 initial_rules) s (best_rule head_rules s best).
Proof. rewrite <- best_app. reflexivity. Qed.
