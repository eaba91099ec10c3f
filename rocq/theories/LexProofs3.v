(** Every rule finds the longest text of its kind. *)
From Coq Require Import String Ascii List NArith PeanoNat Bool Lia Sorted.
From Verif Require Import PyBase PyFacts RegexModel RegexFacts ScanFacts RegexSpec RegexProofs FlexProofs LexModel LexSpec LexProofs LexProofs2.
Import ListNotations.
Open Scope nat_scope.

Definition rule_ok (k : kind) (r : re) : Prop :=
  forall s, match re_match r s with
            | Some (m, t) => s = m ++ t /\ shape k m t /\ forall m' t', s = m' ++ t' -> shape k m' t' -> length m' <= length m
            | None => ~ some_text k s
            end.
Lemma rule_ok_of k r : (forall c t, lang r c t <-> shape k c t) -> head_longest r -> rule_ok k r.
Proof.
  intros L H s. pose proof (re_match_lang r s) as K. destruct (re_match r s) as [[m t]|] eqn:E.
  - destruct K as [Es Lm]. split; [exact Es|]. split; [now apply L|]. intros m' t' Es' S'. apply (H s m t m' t' E Es'). now apply L.
  - intros (m & t & Es & Sm). apply (K m t Es). now apply L.
Qed.

(** ** Fixed texts *)
Lemma lit_ok k w : (forall t rest, shape k t rest <-> In t [u w]) -> rule_ok k (lit (u w)).
Proof.
  intros H. apply rule_ok_of; [|apply lit_hl]. intros c t. rewrite lit_lang, H. cbn. intuition.
Qed.
Lemma augop_ok : rule_ok AUGOP re_augop.
Proof.
  assert (forall c t, lang re_augop c t <-> shape AUGOP c t) as L.
  { intros c t. unfold re_augop. rewrite !alt_iff, !lit_lang. cbn [shape fixed_texts map In]. intuition. }
  apply rule_ok_of; [exact L|]. apply one_length_hl. intros c t c' t' E H H'. apply L in H, H'. cbn [shape fixed_texts map] in H, H'.
  destruct H as [<-|[<-|[<-|[<-|[<-|[<-|[]]]]]]]; destruct H' as [<-|[<-|[<-|[<-|[<-|[<-|[]]]]]]]; try reflexivity; discriminate.
Qed.

(** ** Numbers *)
Lemma imaginary_ok : rule_ok IMAGINARY re_imaginary.
Proof. apply rule_ok_of; [exact imag_lang|exact imag_hl]. Qed.
Lemma real_ok : rule_ok REAL re_real.
Proof. apply rule_ok_of; [exact real_lang|exact real_hl]. Qed.
Lemma integer_ok : rule_ok INTEGER re_integer.
Proof. apply rule_ok_of; [|apply plus_hl]. intros c t. apply some_iff. exact dig_iff. Qed.
Lemma prefixed_lang p P l (a b : N) c t : (forall x, p x = true <-> P x) -> l = [a; b] ->
  lang (rseq [is 48; one_of l; rplus (RChr p)]) c t <-> exists x ds, c = 48%N :: x :: ds /\ (x = b \/ x = a)%N /\ some_of P ds.
Proof.
  intros Hp ->. cbn [rseq]. rewrite seq_iff. split.
  - intros (c1 & c2 & -> & L1 & L2). apply is_lang in L1. subst c1. rewrite seq_iff in L2. destruct L2 as (c3 & ds & -> & L3 & L4).
    apply one_of_lang in L3. destruct L3 as (x & -> & Hx). apply (some_iff _ P) in L4; [|exact Hp]. exists x, ds. split; [reflexivity|]. split; [|exact L4].
    destruct Hx as [<-|[<-|[]]]; [now right|now left].
  - intros (x & ds & -> & Hx & Hd). exists [48%N], (x :: ds). split; [reflexivity|]. split; [now apply is_lang|]. rewrite seq_iff.
    exists [x], ds. split; [reflexivity|]. split; [apply one_of_lang; exists x; split; [reflexivity|]; destruct Hx as [->| ->]; cbn; tauto|].
    now apply (some_iff _ P); [exact Hp|].
Qed.
Lemma prefixed_hl p l : head_longest (rseq [is 48; one_of l; rplus (RChr p)]).
Proof. cbn [rseq]. apply chr_seq_hl, chr_seq_hl, plus_hl. Qed.
Lemma binint_ok : rule_ok BININT re_binint.
Proof. apply rule_ok_of; [|apply prefixed_hl]. intros c t. apply prefixed_lang; [intros x; apply range_iff|reflexivity]. Qed.
Lemma octint_ok : rule_ok OCTINT re_octint.
Proof. apply rule_ok_of; [|apply prefixed_hl]. intros c t. apply prefixed_lang; [intros x; apply range_iff|reflexivity]. Qed.
Lemma hexint_ok : rule_ok HEXINT re_hexint.
Proof. apply rule_ok_of; [|apply prefixed_hl]. intros c t. apply prefixed_lang; [exact hexdig_iff|reflexivity]. Qed.

(** ** Names, blanks and comments *)
Lemma id_ok : rule_ok ID re_id.
Proof.
  apply rule_ok_of; [|apply chr_seq_hl, star_hl]. intros c t. unfold re_id. rewrite seq_iff. cbn [shape]. split.
  - intros (c1 & x & -> & (y & -> & Hy) & L). apply (run_iff _ name_ch) in L; [|exact id_iff]. exists y, x. split; [reflexivity|]. split; [now apply alpha_iff|exact L].
  - intros (y & x & -> & Hy & F). exists [y], x. split; [reflexivity|]. split; [exists y; split; [reflexivity|now apply alpha_iff]|]. now apply (run_iff _ name_ch); [exact id_iff|].
Qed.
Lemma item_tag_ok : rule_ok ITEM_TAG re_item_tag.
Proof.
  apply rule_ok_of; [|apply chr_seq_hl, plus_hl]. intros c t. unfold re_item_tag. rewrite seq_iff. cbn [shape]. split.
  - intros (c1 & x & -> & L1 & L). apply is_lang in L1. subst c1. apply (some_iff _ tag_ch) in L; [|exact tag_iff]. now exists x.
  - intros (x & -> & F). exists [95%N], x. split; [reflexivity|]. split; [now apply is_lang|]. now apply (some_iff _ tag_ch); [exact tag_iff|].
Qed.
Lemma escape_ok : rule_ok ESCAPE_NEWLINE re_escape_newline.
Proof. apply rule_ok_of; [intros c t; apply lit_lang|apply lit_hl]. Qed.
Lemma newline_ok : rule_ok NEWLINE re_newline.
Proof.
  apply rule_ok_of; [|apply chr_seq_hl, star_hl]. intros c t. unfold re_newline. rewrite seq_iff. cbn [shape].
  assert (forall x, existsb (N.eqb x) [10; 32; 9]%N = true <-> (x = 10 \/ x = 32 \/ x = 9)%N) as Q.
  { intros x. cbn [existsb]. rewrite !orb_true_iff, !N.eqb_eq. intuition discriminate. } split.
  - intros (c1 & x & -> & L1 & L). apply is_lang in L1. subst c1. apply (run_iff _ _ _ _ Q) in L. now exists x.
  - intros (x & -> & F). exists [10%N], x. split; [reflexivity|]. split; [now apply is_lang|]. now apply (run_iff _ _ _ _ Q).
Qed.
Lemma comment_ok : rule_ok COMMENT re_comment.
Proof.
  apply rule_ok_of; [|apply chr_seq_hl, star_hl]. intros c t. unfold re_comment. rewrite seq_iff. cbn [shape].
  assert (forall x, negb (x =? 10)%N = true <-> x <> 10%N) as Q by (intros x; rewrite negb_true_iff, N.eqb_neq; reflexivity).
  assert (forall x, Forall (fun c => c <> 10%N) x <-> ~ In 10%N x) as Q2.
  { intros x. rewrite Forall_forall. split; [intros H I; exact (H _ I eq_refl)|intros H y I ->; exact (H I)]. } split.
  - intros (c1 & x & -> & L1 & L). apply is_lang in L1. subst c1. apply (run_iff _ _ _ _ Q) in L. exists x. split; [reflexivity|]. now apply Q2.
  - intros (x & -> & F). exists [35%N], x. split; [reflexivity|]. split; [now apply is_lang|]. apply (run_iff _ _ _ _ Q). now apply Q2.
Qed.

(** ** "else if" *)
Lemma either_not_white x c : (65 <= x <= 90)%N -> either x c -> ~ white c.
Proof. unfold either, white. lia. Qed.
Lemma elseif_lang c t : lang re_elseif c t <-> shape ELSEIF c t.
Proof.
  unfold re_elseif. cbn [rseq shape]. split.
  - rewrite seq_iff. intros (c1 & r1 & -> & L1 & H). rewrite seq_iff in H. destruct H as (c2 & r2 & -> & L2 & H).
    rewrite seq_iff in H. destruct H as (c3 & r3 & -> & L3 & H). rewrite seq_iff in H. destruct H as (c4 & r4 & -> & L4 & H).
    rewrite seq_iff in H. destruct H as (sp & r5 & -> & L5 & H). rewrite seq_iff in H. destruct H as (c6 & c7 & -> & L6 & L7).
    apply letter_lang in L1, L2, L3, L4, L6, L7. apply (some_iff _ white) in L5; [|exact space_iff].
    destruct L1 as (a & -> & Ha), L2 as (b & -> & Hb), L3 as (e & -> & He), L4 as (d & -> & Hd), L6 as (i & -> & Hi), L7 as (f & -> & Hf).
    exists a, b, e, d, sp, i, f. repeat (split; [assumption || reflexivity|]). assumption.
  - intros (a & b & e & d & sp & i & f & -> & Ha & Hb & He & Hd & Hs & Hi & Hf).
    rewrite seq_iff. exists [a], ([b; e; d] ++ sp ++ [i; f]). split; [reflexivity|]. split; [apply letter_lang; now exists a|].
    rewrite seq_iff. exists [b], ([e; d] ++ sp ++ [i; f]). split; [reflexivity|]. split; [apply letter_lang; now exists b|].
    rewrite seq_iff. exists [e], ([d] ++ sp ++ [i; f]). split; [reflexivity|]. split; [apply letter_lang; now exists e|].
    rewrite seq_iff. exists [d], (sp ++ [i; f]). split; [reflexivity|]. split; [apply letter_lang; now exists d|].
    rewrite seq_iff. exists sp, [i; f]. split; [reflexivity|]. split; [now apply (some_iff _ white); [exact space_iff|]|].
    rewrite seq_iff. exists [i], [f]. split; [reflexivity|]. split; apply letter_lang; [now exists i|now exists f].
Qed.
Lemma elseif_ok : rule_ok ELSEIF re_elseif.
Proof.
  apply rule_ok_of; [exact elseif_lang|]. apply one_length_hl. intros x t x' t' E L L'. apply elseif_lang in L, L'.
  destruct L as (a & b & e & d & sp & i & f & -> & Ha & Hb & He & Hd & [_ Hs] & Hi & Hf).
  destruct L' as (a' & b' & e' & d' & sp' & i' & f' & -> & _ & _ & _ & _ & [_ Hs'] & Hi' & Hf').
  cbn [app] in E. injection E as _ _ _ _ E. rewrite <- !app_assoc in E. cbn [app] in E.
  assert (forall l, Forall white l -> Forall (fun c => ~ ~ white c) l) as Q by (intros l; apply Forall_impl; tauto).
  destruct (before_first (fun c => ~ white c) sp i (f :: t) sp' i' (f' :: t')) as (-> & _ & _); auto.
  - now apply (either_not_white 73). - now apply (either_not_white 73).
  - rewrite !app_length. reflexivity.
Qed.

(** ** Prefixes of strings *)
Lemma pre_lang w c t : lang (re_pre w) c t <-> c = w /\ exists q r, t = q :: r /\ quote_ch q.
Proof.
  unfold re_pre. rewrite seq_iff. split.
  - intros (c1 & c2 & -> & L1 & [-> (q & r & -> & L2)]). apply lit_lang in L1. subst c1. apply one_of_lang in L2. destruct L2 as (x & -> & Hx).
    rewrite app_nil_r. split; [reflexivity|]. exists x, r. split; [reflexivity|]. unfold quote_ch. destruct Hx as [<-|[<-|[]]]; [now right|now left].
  - intros [-> (q & r & -> & Hq)]. exists w, []. split; [now rewrite app_nil_r|]. split; [now apply lit_lang|]. split; [reflexivity|].
    exists [q], r. split; [reflexivity|]. apply one_of_lang. exists q. split; [reflexivity|]. destruct Hq as [->| ->]; cbn; tauto.
Qed.
Lemma strprefix_lang c t : lang re_strprefix c t <-> shape STRPREFIX c t.
Proof. unfold re_strprefix. rewrite !alt_iff, !pre_lang. cbn [shape map In]. intuition. Qed.
Lemma prefix_noq t : In t (map u ["r"; "u"; "R"; "U"; "ur"; "UR"; "Ur"; "uR"]%string) -> Forall (fun c => ~ quote_ch c) t.
Proof.
  unfold quote_ch. cbn [map In].
  intros [<-|[<-|[<-|[<-|[<-|[<-|[<-|[<-|[]]]]]]]]]; repeat (apply Forall_cons; [intros [H|H]; discriminate|]); apply Forall_nil.
Qed.
Lemma strprefix_ok : rule_ok STRPREFIX re_strprefix.
Proof.
  apply rule_ok_of; [exact strprefix_lang|]. apply one_length_hl. intros c t c' t' E L L'. apply strprefix_lang in L, L'.
  destruct L as [I (q & r & -> & Hq)], L' as [I' (q' & r' & -> & Hq')]. apply prefix_noq in I, I'.
  destruct (before_first quote_ch c q r c' q' r') as (-> & _ & _); auto.
Qed.

(** ** Long strings: the repetition lists its matches from the longest on *)
Definition longer_first (l : list (str * str)) : Prop := StronglySorted (fun x y => length (fst y) <= length (fst x)) l.
Lemma sorted_map_pre a l : longer_first l -> longer_first (map (pre a) l).
Proof.
  induction 1 as [|x l S IH F]; cbn [map]; [constructor|]. constructor; [exact IH|]. apply Forall_map. eapply Forall_impl; [|exact F].
  intros y Hy. unfold pre. cbn [fst]. rewrite !app_length. cbv beta in Hy. apply Nat.add_le_mono_l. exact Hy.
Qed.
Lemma sorted_snoc l s : longer_first l -> longer_first (l ++ [([], s)]).
Proof.
  induction 1 as [|x l S IH F]; cbn [app]; [repeat constructor|]. constructor; [exact IH|]. apply Forall_app. split; [exact F|]. constructor; [cbn; lia|constructor].
Qed.
Lemma star_sorted m n : (forall s, length (m s) <= 1) -> forall s, longer_first (star_go m n s).
Proof.
  intros H. induction n as [|n IH]; intros s; cbn [star_go]; [repeat constructor|]. apply sorted_snoc. specialize (H s).
  destruct (m s) as [|[c r] [|y l]]; [constructor| |cbn in H; lia]. cbn [flat_map fst snd]. rewrite app_nil_r.
  destruct c as [|x c]; [constructor|]. apply (sorted_map_pre (x :: c)). apply IH.
Qed.
(** A repetition followed by an expression of one length. *)
Lemma sorted_seq_hl a b n : (forall s, longer_first (rmatch a s)) -> (forall c t, lang b c t -> length c = n) -> head_longest (RSeq a b).
Proof.
  intros Ha Hb. rewrite hl_rmatch. intros s x y. rewrite rmatch_seq. intros E I. specialize (Ha s).
  assert (forall w z, In w (map (pre (fst z)) (rmatch b (snd z))) -> length (fst w) = length (fst z) + n) as Q.
  { intros w z Iw. apply in_map_iff in Iw. destruct Iw as ([m t] & <- & Im). apply rmatch_lang in Im. destruct Im as [_ Lm]. unfold pre. cbn [fst]. rewrite app_length. f_equal. exact (Hb _ _ Lm). }
  revert E I. induction Ha as [|z l S IH F]; cbn [flat_map]; [discriminate|]. intros E I. rewrite hd_app in E. apply in_app_iff in I.
  match type of E with match hd_error ?t with _ => _ end = _ => destruct t as [|w l'] eqn:Em end; cbn [hd_error] in E.
  - destruct I as [[]|I]. exact (IH E I).
  - injection E as ->. assert (length (fst x) = length (fst z) + n) as Ex by (apply (Q x z); rewrite Em; now left). rewrite Ex.
    destruct I as [I|I]; [assert (length (fst y) = length (fst z) + n) as Ey by (apply (Q y z); rewrite Em; exact I); lia|].
    apply in_flat_map in I. destruct I as (z' & Iz & Iy). pose proof (Q _ _ Iy) as Ey. rewrite Forall_forall in F. specialize (F z' Iz). rewrite Ey. apply Nat.add_le_mono_r. exact F.
Qed.
Definition long_item : re := RAlt (none_of [92]%N) (RSeq (is 92) rdot).
Lemma long_item_one s : length (rmatch long_item s) <= 1.
Proof.
  unfold long_item. cbn [rmatch]. rewrite app_length. destruct s as [|c s]; [cbn; lia|].
  cbn [rmatch none_of is existsb]. rewrite orb_false_r. rewrite (N.eqb_sym c 92). destruct (92 =? c)%N; cbn [negb length].
  - cbn [flat_map map fst snd]. rewrite app_nil_r, map_length. destruct s as [|d s]; [cbn; lia|]. cbn [rmatch rdot]. destruct (negb (d =? 10)%N); cbn; lia.
  - cbn. lia.
Qed.
Lemma long_hl q : head_longest (re_long q).
Proof.
  unfold re_long. cbn [rseq]. assert (head_longest (RSeq (RStar long_item) (lit [q; q; q]))) as H.
  { apply (sorted_seq_hl _ _ 3); [|intros c t L; apply lit_lang in L; now subst]. intros s. cbn [rmatch]. apply (star_sorted (rmatch long_item)). exact long_item_one. }
  unfold lit at 1. cbn [map rseq]. apply seq_assoc_hl. apply chr_seq_hl. apply seq_assoc_hl. apply chr_seq_hl. apply chr_seq_hl. exact H.
Qed.
Lemma long_item_lang c t : lang long_item c t <-> (exists x, c = [x] /\ x <> 92%N) \/ (exists x, c = [92%N; x] /\ x <> 10%N).
Proof.
  unfold long_item. rewrite alt_iff, seq_iff. split.
  - intros [(x & -> & H)|(c1 & c2 & -> & L1 & (x & -> & H))].
    + left. exists x. split; [reflexivity|]. cbn in H. rewrite orb_false_r, negb_true_iff, N.eqb_neq in H. exact H.
    + right. apply is_lang in L1. subst c1. exists x. split; [reflexivity|]. rewrite negb_true_iff, N.eqb_neq in H. exact H.
  - intros [(x & -> & H)|(x & -> & H)].
    + left. exists x. split; [reflexivity|]. cbn. rewrite orb_false_r, negb_true_iff, N.eqb_neq. exact H.
    + right. exists [92%N], [x]. split; [reflexivity|]. split; [now apply is_lang|]. exists x. split; [reflexivity|]. rewrite negb_true_iff, N.eqb_neq. exact H.
Qed.
Lemma long_body_lang c t : lang (RStar long_item) c t <-> long_body c.
Proof.
  change (lang (RStar long_item) c t) with (reps (lang long_item) c t). split.
  - induction 1 as [t|c1 c2 t L R IH]; [constructor|]. apply long_item_lang in L. destruct L as [(x & -> & H)|(x & -> & H)]; cbn [app]; [now constructor|now apply long_escape].
  - intros B. induction B as [|x c H B IH|x c H B IH]; [constructor| |].
    + apply (reps_cons _ [x] c); [apply long_item_lang; left; now exists x|exact IH].
    + apply (reps_cons _ [92%N; x] c); [apply long_item_lang; right; now exists x|exact IH].
Qed.
Lemma long_lang q c t : lang (re_long q) c t <-> exists x, c = [q; q; q] ++ x ++ [q; q; q] /\ long_body x.
Proof.
  unfold re_long. change (rseq [lit [q; q; q]; RStar (RAlt (none_of [92]%N) (RSeq (is 92) rdot)); lit [q; q; q]]) with (RSeq (lit [q; q; q]) (RSeq (RStar long_item) (lit [q; q; q]))).
  rewrite seq_iff. split.
  - intros (c1 & c2 & -> & L1 & L2). rewrite seq_iff in L2. destruct L2 as (x & c4 & -> & L3 & L4). apply lit_lang in L1, L4. subst. apply long_body_lang in L3. now exists x.
  - intros (x & -> & B). exists [q; q; q], (x ++ [q; q; q]). split; [reflexivity|]. split; [now apply lit_lang|]. rewrite seq_iff. exists x, [q; q; q]. split; [reflexivity|]. split; [now apply long_body_lang|now apply lit_lang].
Qed.
Lemma longstring_ok : rule_ok LONGSTRING re_longstring.
Proof.
  apply rule_ok_of.
  - intros c t. unfold re_longstring. rewrite alt_iff, !long_lang. cbn [shape]. unfold quote_ch. split.
    + intros [(x & -> & B)|(x & -> & B)]; eexists; exists x; (split; [|split; [reflexivity|exact B]]); tauto.
    + intros (q & x & [->| ->] & -> & B); [left|right]; now exists x.
  - apply alt_hl; [apply long_hl|apply long_hl|]. intros c t c' t' E L L'. apply long_lang in L, L'. destruct L as (x & -> & _), L' as (x' & -> & _). discriminate.
Qed.

(** ** Short strings end at the first quote *)
Definition short_item (q : N) : re := RAlt (none_of [q; 10]%N) (RSeq (is 92) rdot).
Definition inside (q c : N) : bool := negb (existsb (N.eqb c) [q; 10]%N).
Lemma inside_iff q c : inside q c = true <-> c <> q /\ c <> 10%N.
Proof. unfold inside. cbn [existsb]. rewrite orb_false_r, negb_true_iff, orb_false_iff, !N.eqb_neq. reflexivity. Qed.
Lemma short_item_no10 q c t : lang (RStar (short_item q)) c t -> ~ In 10%N c.
Proof.
  change (lang (RStar (short_item q)) c t) with (reps (lang (short_item q)) c t). induction 1 as [t|c1 c2 t L R IH]; [intros []|].
  intros H. apply in_app_iff in H. destruct H as [H|H]; [|exact (IH H)]. unfold short_item in L. rewrite alt_iff in L. destruct L as [(x & -> & P)|L].
  - destruct H as [->|[]]. fold (inside q 10) in P. apply inside_iff in P. destruct P as [_ P]. now elim P.
  - rewrite seq_iff in L. destruct L as (d1 & d2 & -> & L1 & (x & -> & P)). apply is_lang in L1. subst d1. cbn in H. destruct H as [H|[->|[]]]; [discriminate|]. discriminate.
Qed.
Lemma split_cases {A} (a b c d : list A) x y : a ++ x :: b = c ++ y :: d -> (exists r, a = c ++ y :: r) \/ (a = c /\ x = y) \/ (exists r, c = a ++ x :: r).
Proof.
  revert c. induction a as [|z a IH]; intros [|w c] E; cbn in E; injection E as -> E.
  - right. now left. - right. right. now exists c. - left. now exists a.
  - destruct (IH c E) as [(r & ->)|[[-> ->]|(r & ->)]]; [left; now exists r|right; now left|right; right; now exists r].
Qed.
Lemma short_match q s : q <> 92%N -> q <> 10%N ->
  re_match (re_short q) (q :: s) =
    match snd (span (inside q) s) with
    | c :: r => if (q =? c)%N then Some (q :: fst (span (inside q) s) ++ [q], r) else None
    | [] => None
    end.
Proof.
  intros N1 N2. unfold re_short. change (rseq [is q; RStar (RAlt (none_of [q; 10]%N) (RSeq (is 92) rdot)); is q]) with (RSeq (is q) (RSeq (RStar (short_item q)) (is q))).
  unfold is at 1. rewrite re_seq_chr, N.eqb_refl.
  pose proof (span_app (inside q) s) as Es. pose proof (span_all (inside q) s) as Fx.
  assert (forall c t, snd (span (inside q) s) = c :: t -> inside q c = false) as Hr by (intros c t E; exact (span_stop _ _ _ _ E)).
  destruct (span (inside q) s) as [x r] eqn:Esp. cbn [fst snd] in *.
  destruct r as [|c r'] eqn:Er; [|destruct (N.eqb_spec q c) as [<-|Nq]].
  - pose proof (re_match_lang (RSeq (RStar (short_item q)) (is q)) s) as K. destruct (re_match _ s) as [[m t]|]; [|reflexivity]. exfalso.
    destruct K as [E L]. rewrite seq_iff in L. destruct L as (c1 & c2 & -> & L1 & L2). apply is_lang in L2. subst c2.
    rewrite app_nil_r in Es. rewrite Es, E in Fx. rewrite <- app_assoc in Fx. apply Forall_app in Fx. destruct Fx as [_ Fx]. pose proof (Forall_inv Fx) as P. cbv beta in P. apply inside_iff in P. now destruct P.
  - assert (re_match (RStar (short_item q)) (x ++ q :: r') = Some (x, q :: r')) as H1.
    { apply re_star_body.
      - intros v1 c v2 Ex. rewrite Ex in Fx. apply Forall_app in Fx. destruct Fx as [_ Fx]. pose proof (Forall_inv Fx) as P. cbv beta in P. unfold short_item. rewrite re_alt. unfold none_of. rewrite re_chr. change (negb (existsb (N.eqb c) [q; 10]%N)) with (inside q c). now rewrite P.
      - unfold short_item. rewrite <- (app_nil_r (rmatch (RAlt _ _) _)). cbn [rmatch]. unfold none_of, is. cbn [rmatch existsb]. rewrite N.eqb_refl. cbn [orb negb app]. destruct (N.eqb_spec 92 q) as [<-|]; [now elim N1|reflexivity]. }
    rewrite <- Es. rewrite (re_seq _ _ _ x (q :: r') [q] r' H1); [reflexivity|]. unfold is. rewrite re_chr, N.eqb_refl. reflexivity.
  - assert (c = 10%N) as ->.
    { pose proof (Hr c r' eq_refl) as P. destruct (N.eq_dec c 10) as [E|N3]; [exact E|]. assert (inside q c = true) by (apply inside_iff; split; [congruence|exact N3]). congruence. }
    pose proof (re_match_lang (RSeq (RStar (short_item q)) (is q)) s) as K. destruct (re_match _ s) as [[m t]|]; [|reflexivity]. exfalso.
    destruct K as [E L]. rewrite seq_iff in L. destruct L as (c1 & c2 & -> & L1 & L2). apply is_lang in L2. subst c2. apply short_item_no10 in L1.
    rewrite <- app_assoc in E. cbn [app] in E. rewrite <- Es in E. destruct (split_cases _ _ _ _ _ _ E) as [(z & Ez)|[[_ Ez]|(z & Ez)]].
    + rewrite Ez in Fx. apply Forall_app in Fx. destruct Fx as [_ Fx]. pose proof (Forall_inv Fx) as P. cbv beta in P. apply inside_iff in P. now destruct P.
    + congruence.
    + apply L1. rewrite Ez. apply in_app_iff. right. now left.
Qed.
Definition short_shape (q : N) (t : list N) : Prop := exists x, t = q :: x ++ [q] /\ ~ In q x /\ ~ In 10%N x.
Lemma short_one (q : N) (x r x' r' : list N) : ~ In q x -> ~ In q x' -> x ++ q :: r = x' ++ q :: r' -> x = x' /\ r = r'.
Proof.
  intros H H' E. assert (forall l, ~ In q l -> Forall (fun c => c <> q) l) as Q by (intros l Hl; apply Forall_forall; intros y I ->; exact (Hl I)).
  destruct (before_first (fun c => c = q) x q r x' q r') as (-> & _ & ->); auto.
Qed.
Lemma short_rule q : q <> 92%N -> q <> 10%N -> forall s,
  match re_match (re_short q) s with
  | Some (m, t) => s = m ++ t /\ short_shape q m
  | None => forall m t, s = m ++ t -> ~ short_shape q m
  end.
Proof.
  intros N1 N2 s. destruct s as [|c s].
  - intros m t E (x & -> & _). discriminate.
  - destruct (N.eqb_spec q c) as [<-|Nc].
    + rewrite short_match by assumption. pose proof (span_app (inside q) s) as Es. pose proof (span_all (inside q) s) as Fx. pose proof (span_stop (inside q) s) as Hr.
      destruct (span (inside q) s) as [x r] eqn:Esp. cbn [fst snd] in *.
      assert (~ In q x /\ ~ In 10%N x) as [Nx Nn].
      { rewrite Forall_forall in Fx. split; intros I; apply Fx, inside_iff in I; destruct I as [A B]; congruence. }
      assert (forall m t, q :: s = m ++ t -> short_shape q m -> exists r', r = q :: r') as U.
      { intros m t E (x' & -> & Hx & Hn). cbn [app] in E. injection E as E. rewrite <- app_assoc in E. cbn [app] in E.
        destruct r as [|c r'].
        - rewrite app_nil_r in Es. exfalso. apply Nx. rewrite Es, E. apply in_app_iff. right. now left.
        - rewrite <- Es in E. destruct (split_cases _ _ _ _ _ _ E) as [(z & Ez)|[[_ Ez]|(z & Ez)]].
          + exfalso. apply Nx. rewrite Ez. apply in_app_iff. right. now left.
          + subst c. now exists r'.
          + exfalso. pose proof (Hr c r' eq_refl) as P. assert (In c x') as I by (rewrite Ez; apply in_app_iff; right; now left).
            assert (inside q c = true) by (apply inside_iff; split; intros ->; contradiction). congruence. }
      destruct r as [|c r']; [intros m t E S'; destruct (U m t E S') as (r' & H); discriminate|].
      destruct (N.eqb_spec q c) as [<-|Nq].
      * split; [rewrite <- Es; cbn [app]; rewrite <- app_assoc; reflexivity|]. now exists x.
      * intros m t E S'. destruct (U m t E S') as (r'' & H). congruence.
    + unfold re_short. cbn [rseq]. unfold is at 1. rewrite re_seq_chr. destruct (N.eqb_spec q c); [contradiction|].
      intros m t E (x & -> & _). cbn [app] in E. congruence.
Qed.
Lemma shortstring_ok : rule_ok SHORTSTRING re_shortstring.
Proof.
  intros s. unfold re_shortstring. rewrite re_alt. pose proof (short_rule 39 ltac:(discriminate) ltac:(discriminate) s) as K1. pose proof (short_rule 34 ltac:(discriminate) ltac:(discriminate) s) as K2.
  assert (forall m t m' t', s = m ++ t -> s = m' ++ t' -> shape SHORTSTRING m t -> shape SHORTSTRING m' t' -> length m' <= length m) as U.
  { intros m t m' t' E E' (q & x & _ & -> & Nx & _) (q' & x' & _ & -> & Nx' & _). rewrite E in E'. cbn [app] in E'. injection E' as <- E'. rewrite <- !app_assoc in E'. cbn [app] in E'.
    destruct (short_one q x t x' t' Nx Nx' E') as [-> _]. apply le_n. }
  destruct (re_match (re_short 39) s) as [[m t]|].
  - destruct K1 as [E (x & -> & Nx & Nn)]. assert (shape SHORTSTRING (39%N :: x ++ [39%N]) t) as H by (exists 39%N, x; split; [now left|now split]).
    split; [exact E|]. split; [exact H|]. intros m' t' E' H'. exact (U _ _ _ _ E E' H H').
  - destruct (re_match (re_short 34) s) as [[m t]|].
    + destruct K2 as [E (x & -> & Nx & Nn)]. assert (shape SHORTSTRING (34%N :: x ++ [34%N]) t) as H by (exists 34%N, x; split; [now right|now split]).
      split; [exact E|]. split; [exact H|]. intros m' t' E' H'. exact (U _ _ _ _ E E' H H').
    + intros (m & t & E & (q & x & [->| ->] & -> & H)); [apply (K1 _ _ E)|apply (K2 _ _ E)]; now exists x.
Qed.

Theorem rules_ok st : Forall (fun kr => rule_ok (fst kr) (snd kr)) (rules st).
Proof.
  assert (Forall (fun kr => rule_ok (fst kr) (snd kr)) initial_rules) as H.
  { unfold initial_rules. repeat (apply Forall_cons; [cbn [fst snd]|]); [..|apply Forall_nil].
    all: first [exact augop_ok|exact imaginary_ok|exact real_ok|exact binint_ok|exact octint_ok|exact hexint_ok|exact integer_ok|exact strprefix_ok|exact longstring_ok|exact shortstring_ok|exact elseif_ok|exact id_ok|exact item_tag_ok|exact escape_ok|exact newline_ok|exact comment_ok|apply lit_ok; intros t rest; reflexivity]. }
  unfold rules. destruct (Nat.eqb (s_depth st) 0); [exact H|]. unfold paren_rules.
  repeat (apply Forall_cons; [cbn [fst snd]; apply lit_ok; intros t rest; reflexivity|]). exact H.
Qed.
