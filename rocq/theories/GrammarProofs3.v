(** Names in what was read. *)
From Coq Require Import String Ascii List NArith PeanoNat Bool Lia.
From Verif Require Import PyBase RegexModel RegexSpec RegexProofs ScanModel ScanSpec ReadModel ParseModel ParseSpec GrammarSpec FlexProofs GrammarProofs2.
Import ListNotations.
Open Scope nat_scope.

Section Names.
Context (g : grammar).
Lemma laid_matches ts s r : laid g ts s r -> forall t m, In (t, m) ts -> exists a, matches g t (m ++ a) m a.
Proof. intros H. induction H as [|w t m s ts s' Hw Hm H IH]; intros t0 m0 [].
  - injection H0 as <- <-. now exists s.
  - now apply IH.
Qed.
Lemma item_in i ts n : item_toks g i ts -> In n (item_names i) -> In (DataName, n) ts.
Proof.
  intros H K. destruct H as [n0 v ts Hv|m ns vs ts Hn Hv]; cbn [item_names] in K.
  - destruct K as [<-|[]]. now left.
  - right. cbn [app]. apply in_or_app. left. now apply (in_map (fun x => (DataName, x))).
Qed.
Lemma items_in l ts n : items_toks g l ts -> In n (flat_map item_names l) -> In (DataName, n) ts.
Proof.
  intros H. induction H as [|i ts l ts' Hi H IH]; cbn [flat_map]; [easy|]. intros K. apply in_app_or in K. apply in_or_app. destruct K as [K|K]; [left; exact (item_in _ _ _ Hi K)|right; auto].
Qed.
Lemma contents_in b cs ts n : contents_toks g b cs ts -> In n (flat_map content_names cs) -> In (DataName, n) ts.
Proof.
  intros H. induction H as [b|b l ts cs ts' Hl Hi H IH|b h l ts e cs ts' Hb Hl IHl H IH]; cbn [flat_map content_names]; [easy| |]; intros K; apply in_app_or in K.
  - apply in_or_app. destruct K as [K|K]; [left; exact (items_in _ _ _ Hi K)|right; auto].
  - right. cbn [app]. apply in_or_app. destruct K as [K|K]; [left; auto|right; right; auto].
Qed.
Lemma frames_in b cs ts n : contents_toks g b cs ts -> In n (flat_map frame_names cs) -> exists h, n = skipn 5 h /\ In (SaveHeading, h) ts.
Proof.
  intros H. induction H as [b|b l ts cs ts' Hl Hi H IH|b h l ts e cs ts' Hb Hl IHl H IH]; cbn [flat_map frame_names app]; [easy| |]; intros K.
  - destruct (IH K) as (h & E & I1). exists h. split; [exact E|]. apply in_or_app. now right.
  - destruct K as [<-|K]; [exists h; split; [reflexivity|now left]|]. apply in_app_or in K. destruct K as [K|K].
    + destruct (IHl K) as (h0 & E & I1). exists h0. split; [exact E|]. right. change (In (SaveHeading, h0) (ts ++ one SaveEnd e ++ ts')). apply in_or_app. left. exact I1.
    + destruct (IH K) as (h0 & E & I1). exists h0. split; [exact E|]. right. change (In (SaveHeading, h0) (ts ++ one SaveEnd e ++ ts')). apply in_or_app. right. right. exact I1.
Qed.
Lemma blocks_in ds ts n : blocks_toks g ds ts -> In n (all_datanames ds) -> In (DataName, n) ts.
Proof.
  intros H. induction H as [|h cs ts bs ts' Hc H IH]; cbn [all_datanames flat_map d_contents]; [easy|]. intros K. apply in_app_or in K. right. cbn [app]. apply in_or_app. destruct K as [K|K]; [left; exact (contents_in _ _ _ _ Hc K)|right; auto].
Qed.
Lemma headings_in ds ts n : blocks_toks g ds ts -> In n (all_headings ds) -> exists h, n = skipn 5 h /\ (In (SaveHeading, h) ts \/ In (DataHeading, h) ts).
Proof.
  intros H. induction H as [|h cs ts bs ts' Hc H IH]; cbn [all_headings flat_map d_contents d_name app]; [easy|]. intros [<-|K]; [exists h; split; [reflexivity|right; now left]|]. apply in_app_or in K. destruct K as [K|K].
  - destruct (frames_in _ _ _ _ Hc K) as (h0 & E & I1). exists h0. split; [exact E|]. left. right. change (In (SaveHeading, h0) (ts ++ ts')). apply in_or_app. left. exact I1.
  - destruct (IH K) as (h0 & E & I1). exists h0. split; [exact E|]. destruct I1 as [I1|I1]; [left; right; change (In (SaveHeading, h0) (ts ++ ts'))|right; right; change (In (DataHeading, h0) (ts ++ ts'))]; apply in_or_app; right; exact I1.
Qed.
Lemma plus_name m a : lang (rplus (RChr (name_char g))) m a -> m <> [] /\ Forall (fun c => name_char g c = true) m.
Proof. intros (c1 & c2 & -> & (x & -> & X) & L). apply lang_star in L. split; [discriminate|]. now constructor. Qed.
Lemma dataname_text m a : matches g DataName (m ++ a) m a -> readable_name g m.
Proof.
  intros M. apply re_in in M. destruct M as [_ (c1 & c2 & -> & (x & -> & X) & L)]. apply N.eqb_eq in X. subst x. apply plus_name in L. now exists c2.
Qed.
(** A word of five letters. *)
Lemma one_letter c m a : lang (either_case c) m a -> length m = 1.
Proof.
  unfold either_case. destruct ((65 <=? c) && (c <=? 90))%N; [|intros (x & -> & _); reflexivity]. unfold letter. intros [(x & -> & _)|(x & -> & _)]; reflexivity.
Qed.
Lemma word_length w : forall m a, lang (word_ci w) m a -> length m = length w.
Proof.
  unfold word_ci. induction w as [|c w IH]; intros m a L; [cbn in L; now subst m|]. destruct w as [|d w].
  - exact (one_letter _ _ _ L).
  - change (lang (RSeq (either_case c) (rseq (map either_case (d :: w)))) m a) in L. destruct L as (c1 & c2 & -> & L1 & L). rewrite app_length, (IH _ _ L), (one_letter _ _ _ L1). reflexivity.
Qed.
Lemma heading_text t m a : t = SaveHeading \/ t = DataHeading -> matches g t (m ++ a) m a -> readable_heading g (skipn 5 m).
Proof.
  intros Ht M. apply re_in in M. destruct M as [_ L]. destruct Ht as [-> | ->]; cbn [tok_re] in L; destruct L as (c1 & c2 & -> & L1 & L2); apply word_length in L1; change (length c1 = 5) in L1;
    rewrite skipn_app, L1, skipn_all2, Nat.sub_diag by lia; cbn [app skipn]; exact (plus_name _ _ L2).
Qed.
Theorem read_names s ds : parse_file g s = Ret ds -> Forall (readable_name g) (all_datanames ds) /\ Forall (readable_heading g) (all_headings ds).
Proof.
  intros H. destruct (parse_file_toks _ _ _ H) as (ts & r & L & _ & B). pose proof (laid_matches _ _ _ L) as M. split; apply Forall_forall; intros n K.
  - destruct (M DataName n) as (a & Ma); [apply in_or_app; left; exact (blocks_in _ _ _ B K)|]. exact (dataname_text _ _ Ma).
  - destruct (headings_in _ _ _ B K) as (h & -> & [I1|I1]).
    + destruct (M SaveHeading h) as (a & Ma); [apply in_or_app; now left|]. exact (heading_text _ _ _ (or_introl eq_refl) Ma).
    + destruct (M DataHeading h) as (a & Ma); [apply in_or_app; now left|]. exact (heading_text _ _ _ (or_intror eq_refl) Ma).
Qed.
End Names.
