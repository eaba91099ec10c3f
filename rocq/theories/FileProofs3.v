(** Writing a collection and reading it back. *)
From Coq Require Import String Ascii List NArith ZArith Bool Lia Permutation.
From Verif Require Import PyBase PyFacts StarBlockModel RegexModel FoldModel ScanModel FormatModel ReadModel WriteModel ParseModel CollectionModel FileModel
  CollectionSpec ParseSpec FileSpec StarBlockProofs2 CollectionProofs CollectionProofs2 CollectionProofs3 CollectionProofs4 ParseProofs4 ParseProofs5 FileProofs FileProofs2.
Import ListNotations.
Open Scope nat_scope.

Lemma fix_heading g nm : readable_heading g nm -> fix_name true nm = nm.
Proof.
  intros [_ H]. unfold fix_name. induction H as [|c r H _ IH]; [reflexivity|]. cbn [map]. rewrite IH. f_equal.
  destruct (N.eqb_spec c 32) as [->|]; [now destruct g|]. destruct (N.eqb_spec c 9) as [->|]; [now destruct g|]. reflexivity.
Qed.
Lemma exists_list {A B} (R : A -> B -> Prop) l : (forall x, In x l -> exists y, R x y) -> exists l', Forall2 R l l'.
Proof.
  induction l as [|x l IH]; intros H; [exists []; constructor|].
  destruct (H x (or_introl eq_refl)) as [y Hy]. destruct IH as [l' Hl]; [intros z Hz; apply H; now right|].
  exists (y :: l'). now constructor.
Qed.

(** ** Lines *)
Lemma split_nl_ne s : split_nl s <> [].
Proof. induction s as [|c s IH]; [discriminate|]. cbn [split_nl]. destruct (c =? nl)%N; [intros X; discriminate X|]. destruct (split_nl s); intros X; discriminate X. Qed.
Lemma split_nl_lines s : lines_of s (split_nl s).
Proof.
  induction s as [|c s (IH1 & IH2 & IH3)]; [split; [discriminate|]; split; [repeat constructor; intros []|reflexivity]|].
  cbn [split_nl]. unfold nl. destruct (N.eqb_spec c 10) as [->|Hc].
  - split; [discriminate|]. split; [constructor; [intros []|exact IH2]|].
    cbn [join_lines]. destruct (split_nl s) eqn:E; [now destruct (split_nl_ne s)|]. cbn [app]. now f_equal.
  - destruct (split_nl s) as [|l r] eqn:E; [now destruct (split_nl_ne s)|]. split; [discriminate|]. split.
    + inversion IH2; subst. constructor; [|assumption]. intros [X|X]; [congruence|contradiction].
    + rewrite IH3 at 1. destruct r; reflexivity.
Qed.
Lemma app_split (a b a' b' : str) : ~ In 10%N a -> ~ In 10%N a' -> a ++ 10%N :: b = a' ++ 10%N :: b' -> a = a' /\ b = b'.
Proof.
  revert a'. induction a as [|x a IH]; intros [|y a'] H H' E; cbn in E.
  - injection E as <-. auto.
  - injection E as <- _. exfalso. apply H'. now left.
  - injection E as -> _. exfalso. apply H. now left.
  - injection E as <- E. destruct (IH a') as [-> ->]; [intros X; apply H; now right|intros X; apply H'; now right|exact E|]. auto.
Qed.
Lemma lines_unique s ls ls' : lines_of s ls -> lines_of s ls' -> ls = ls'.
Proof.
  intros (N & F & E) (N' & F' & E'). rewrite E in E'. clear E s. revert ls' N' F' E'.
  induction ls as [|l ls IH]; intros [|l' ls'] N' F' E'; try congruence.
  inversion F; subst. inversion F'; subst.
  destruct ls as [|a ls], ls' as [|a' ls']; cbn [join_lines] in E'.
  - now subst.
  - exfalso. subst l. match goal with H : ~ In _ (l' ++ _) |- _ => apply H end. apply in_or_app. right. now left.
  - exfalso. subst l'. match goal with H : ~ In _ (l ++ _) |- _ => apply H end. apply in_or_app. right. now left.
  - apply app_split in E' as [-> E']; [|assumption|assumption]. f_equal. apply IH; [discriminate|assumption|discriminate|assumption|exact E'].
Qed.
Lemma too_long_None m s : too_long m s = None <-> short_lines m s.
Proof.
  unfold too_long, short_lines. destruct (Z.ltb_spec 0 m) as [Hm|Hm]; [|split; [intros _ X; lia|reflexivity]].
  destruct (filter (fun l : list N => (m <? Z.of_nat (length l))%Z) (split_nl s)) as [|l r] eqn:E.
  - split; [|reflexivity]. intros _ _ ls Hls. rewrite (lines_unique s ls (split_nl s) Hls (split_nl_lines s)).
    apply Forall_forall. intros l Hl. destruct (Z.ltb_spec m (Z.of_nat (length l))) as [X|X]; [|exact X].
    assert (In l []) as []. rewrite <- E. apply filter_In. split; [exact Hl|]. now apply Z.ltb_lt.
  - assert (In l (split_nl s) /\ (m <? Z.of_nat (length l))%Z = true) as [H1 H2] 
      by (apply (filter_In (fun l : list N => (m <? Z.of_nat (length l))%Z)); rewrite E; now left).
    split.
    + intros X. exfalso. destruct (index_of str_eqb l (split_nl s)) eqn:I; [discriminate|].
      apply (index_of_None str_eqb str_eqb_spec) in I. contradiction.
    + intros X. specialize (X Hm _ (split_nl_lines s)). rewrite Forall_forall in X. specialize (X l H1). apply Z.ltb_lt in H2. lia.
Qed.
Lemma cut_z_id s : ~ In 26%N s -> cut_z s = s.
Proof.
  induction s as [|c s IH]; intros H; [reflexivity|]. cbn. destruct (N.eqb_spec c 26) as [->|]; [exfalso; apply H; now left|].
  rewrite IH; [reflexivity|]. intros X. apply H. now right.
Qed.

(** ** Writing *)
Lemma write_frames_text maxout hs c r : forall ks fs,
  Forall2 (fun k (x : str * list item * str) => id_of k c = Ret (fst (fst x)) /\ body_text maxout hs k c = Ret (snd x)) ks fs ->
  write_secs maxout hs (map WFrame ks ++ r) c = obind (write_secs maxout hs r c) (fun t => Ret (frames_text fs ++ t)).
Proof.
  induction 1 as [|k [[nm es] o] ks fs [H1 H2] HF IH]; cbn [map app write_secs].
  - destruct (write_secs maxout hs r c); reflexivity.
  - cbn [fst snd] in *. rewrite H1, H2, IH. cbn [obind]. destruct (write_secs maxout hs r c); [|reflexivity]. cbn [obind].
    unfold frames_text. cbn [map concat frame_text]. now rewrite <- !app_assoc.
Qed.
Definition fblock_writes (maxout : Z) (hs : list hint) (c : coll) (frames : str -> list str) (k : str) (x : fblock) : Prop :=
  match x with (nm, fs, es, out) => id_of k c = Ret nm /\ body_text maxout hs k c = Ret out /\
    Forall2 (fun k (x : str * list item * str) => id_of k c = Ret (fst (fst x)) /\ body_text maxout hs k c = Ret (snd x)) (frames k) fs end.
Lemma write_file_text maxout hs c frames : c_std c <> StdDic -> forall tops xs,
  Forall2 (fblock_writes maxout hs c frames) tops xs ->
  write_secs maxout hs (concat (map (fun r => section (c_std c) r (frames r)) tops)) c = Ret (ftext xs).
Proof.
  intros Hs. induction 1 as [|k [[[nm fs] es] o] ks xs (H1 & H2 & H3) HF IH]; [reflexivity|].
  cbn [map concat]. unfold section at 1.
  replace (match c_std c with StdDic => _ | _ => map WFrame (frames k) ++ [WBody k] end) with (map WFrame (frames k) ++ [WBody k]) by (destruct (c_std c); congruence).
  cbn [app write_secs]. rewrite H1. cbn [obind]. rewrite <- app_assoc, (write_frames_text _ _ _ _ _ _ H3). cbn [app write_secs].
  rewrite H2, IH. cbn [obind]. rewrite ftext_cons. cbn [app]. now rewrite <- !app_assoc.
Qed.

(** ** Keys and blocks of a written collection *)
Section Ready.
  Variables (maxout maxn : Z) (c : coll).
  Hypothesis R : file_ready maxout maxn c.
  Let W : CWF c := proj1 R.
  Let g := c_gram c.

  Definition key_reads (mx : Z) (un : bool) (k : str) (d : str * list item * str * block) : Prop :=
    match d with (nm, es, out, b') =>
      id_of k c = Ret nm /\ lower nm = k /\ length nm <= 75 /\ fix_name true nm = nm /\
      body_text maxout [] k c = Ret out /\ printed_block g maxout (nm, es, out) /\
      read_block (plain_items (read_of es)) (empty_block false mx un) = (b', Ret tt) /\
      exists b, c_get k c = Ret b /\ StarBlockSpec.WF b' /\ same_read b b' /\ Forall2 (same_place b b') (b_order b) (b_order b')
    end.
  Lemma key_reads_ok k e un : In (k, e) (c_child c) -> exists d, key_reads (name_limit (c_std c) maxn e) un k d.
  Proof using R.
    intros He. assert (In k (ckeys c)) as Hk by (apply (in_table c W); apply in_map_iff; exists (k, e); auto).
    pose proof Hk as Hk'. unfold ckeys in Hk'. apply in_map_iff in Hk' as ([k' b] & E & Hb). cbn in E. subst k'.
    assert (c_get k c = Ret b) as Eg by (apply (c_get_spec c k b W); rewrite (cw_low c W k Hk); exact Hb).
    pose proof R as (_ & _ & _ & HR). destruct (HR k e b He Eg) as (H1 & H2 & H3 & H4).
    destruct (good_block_writable _ _ _ _ H4) as [es Hw].
    destruct (writable_prints _ _ _ (pc_id e) _ _ H2 Hw) as (out & Ep & Hp).
    destruct (writable_reads _ _ _ un _ _ Hw) as (bl & Er & Wb & Sr & Sp).
    exists (pc_id e, es, out, bl). split; [|split; [exact H1|]]; [|split; [exact H3|split; [eapply fix_heading; exact H2|]]].
    - unfold id_of. rewrite (dget_In_NoDup str_eqb str_eqb_spec _ _ _ (table_NoDup c W) He). reflexivity.
    - split; [|split; [exact Hp|split; [exact Er|exists b; auto]]]. unfold body_text. rewrite Eg. exact Ep.
  Qed.

  Variables (tops : list str) (frames : str -> list str).
  Hypothesis Ht : without (fun x => ~ root c x) (c_order c) tops.
  Hypothesis Hf : forall r, In r tops -> without (fun x => ~ below c r x) (c_order c) (frames r).
  Lemma tops_root r : In r tops -> root c r.
  Proof using Hf Ht R.
    destruct Ht as (keep & H & ->). intros Hr. apply filter_In in Hr as [H1 H2].
    assert (In r (ckeys c)) as Hk by now apply (in_corder c W).
    destruct (has_root c W r Hk) as [X|(r' & R' & B)]; [exact X|]. exfalso.
    assert (keep r = false) by (apply H; [exact H1|]; intros X; exact (root_below c W _ _ X B)). congruence.
  Qed.
  Lemma frames_below r x : In r tops -> In x (frames r) -> below c r x.
  Proof using Hf Ht R.
    intros Hr Hx. destruct (Hf r Hr) as (keep & H & E). rewrite E in Hx. apply filter_In in Hx as [H1 H2].
    assert (In x (ckeys c)) as Hk by now apply (in_corder c W).
    destruct (is_child_ok c W r x) as (t & _ & Ht').
    rewrite (cw_low c W x Hk), (cw_low c W r (root_key c r W (tops_root r Hr))) in Ht'. destruct t; [now apply Ht'|].
    assert (keep x = false); [|congruence]. apply H; [exact H1|]. intros B. now apply Ht' in B.
  Qed.

  (** A data block with its frames, printed and read. *)
  Definition top_reads (r : str) (x : (str * list item * str * block) * list (str * list item * str * block)) : Prop :=
    key_reads (limit (c_std c) maxn) true r (fst x) /\ Forall2 (key_reads 75 (unicode_grammar g)) (frames r) (snd x).
  Lemma tops_reads : exists xs, Forall2 top_reads tops xs.
  Proof using Hf Ht R.
    apply exists_list. intros r Hr. pose proof (tops_root r Hr) as (i & Hi).
    destruct (key_reads_ok r _ true Hi) as [d Hd].
    destruct (exists_list (key_reads 75 (unicode_grammar g)) (frames r)) as [ds Hds].
    - intros x Hx. pose proof (frames_below r x Hr Hx) as B.
      assert (exists p, inside c p x) as (p & i' & Hi') by (inversion B; subst; eauto).
      destruct (key_reads_ok x _ (unicode_grammar g) Hi') as [d' Hd']. exists d'. exact Hd'.
    - exists (d, ds). split; [|exact Hds]. cbn [fst]. unfold name_limit in Hd. cbn [pc_parent] in Hd. unfold limit. exact Hd.
  Qed.
  Definition to_print (d : str * list item * str * block) : str * list item * str := match d with (nm, es, out, _) => (nm, es, out) end.
  Definition to_block (d : str * list item * str * block) : str * block := match d with (nm, _, _, b) => (nm, b) end.
  Definition to_f (x : (str * list item * str * block) * list (str * list item * str * block)) : fblock :=
    match fst x with (nm, es, out, _) => (nm, map to_print (snd x), es, out) end.
  Definition to_y (x : (str * list item * str * block) * list (str * list item * str * block)) : str * list (str * block) * block :=
    match fst x with (nm, _, _, b) => (nm, map to_block (snd x), b) end.
  Lemma top_writes r x : top_reads r x -> fblock_writes maxout [] c frames r (to_f x).
  Proof using.
    destruct x as [[[[nm es] out] b'] ds]. intros [(H1 & _ & _ & _ & H2 & _) HF]. cbn [fst snd] in *.
    split; [exact H1|]. split; [exact H2|]. clear -HF. induction HF as [|k [[[nm2 es2] out2] b2] ks ds H HF IH]; constructor; [|exact IH].
    destruct H as (H1 & _ & _ & _ & H2 & _). split; assumption.
  Qed.
  Lemma top_printed r x : top_reads r x -> printed_file g maxout (to_f x).
  Proof using.
    destruct x as [[[[nm es] out] b'] ds]. intros [(_ & _ & _ & _ & _ & H & _) HF]. cbn [fst snd] in *. split; [|exact H].
    clear -HF. induction HF as [|k [[[nm2 es2] out2] b2] ks ds H HF IH]; constructor; [|exact IH].
    destruct H as (_ & _ & _ & _ & _ & H & _). exact H.
  Qed.
  Lemma top_built r x : top_reads r x -> dblock_reads g maxn (c_std c) (to_f x) (to_y x).
  Proof using.
    destruct x as [[[[nm es] out] b'] ds]. intros [(_ & _ & H1 & H2 & _ & _ & H3 & _) HF]. cbn [fst snd] in *.
    split; [reflexivity|]. split; [exact H1|]. split; [exact H2|]. split; [|exact H3].
    clear -HF. induction HF as [|k [[[nm2 es2] out2] b2] ks ds H HF IH]; constructor; [|exact IH].
    destruct H as (_ & _ & H1 & H2 & _ & _ & H3 & _). apply read_block_split in H3 as [H3 _].
    split; [reflexivity|]. split; [exact H1|]. split; [exact H2|exact H3].
  Qed.
  Lemma top_keys r x : top_reads r x -> map ekey (dblock_ents (to_y x)) = r :: frames r.
  Proof using.
    destruct x as [[[[nm es] out] b'] ds]. intros [(_ & H & _) HF]. cbn [fst snd] in *. cbn [to_y dblock_ents map ekey fst snd]. rewrite H. f_equal.
    clear -HF. induction HF as [|k [[[nm2 es2] out2] b2] ks ds H HF IH]; [reflexivity|]. cbn [map]. rewrite IH. f_equal.
    destruct H as (_ & H & _). exact H.
  Qed.
  (** What the entry for a key says. *)
  Definition ent_good (e : ent) : Prop :=
    match e with (k, nm, p, b') =>
      id_of k c = Ret nm /\ ((p = None /\ root c k) \/ exists r, p = Some r /\ root c r /\ below c r k) /\
      exists b, c_get k c = Ret b /\ StarBlockSpec.WF b' /\ same_read b b' /\ Forall2 (same_place b b') (b_order b) (b_order b')
    end.
  Lemma top_ents r x : In r tops -> top_reads r x -> Forall ent_good (dblock_ents (to_y x)).
  Proof using Ht Hf R.
    destruct x as [[[[nm es] out] b'] ds]. intros Hr [(H1 & H2 & _ & _ & _ & _ & _ & H3) HF]. cbn [fst snd] in *.
    cbn [to_y dblock_ents fst snd]. rewrite H2. constructor.
    - split; [exact H1|]. split; [left; split; [reflexivity|now apply tops_root]|exact H3].
    - assert (forall x, In x (frames r) -> below c r x) as HB by (intros x; now apply frames_below).
      pose proof (tops_root r Hr) as Rr. clear -HF HB Rr.
      induction HF as [|k [[[nm2 es2] out2] b2] ks ds H HF IH]; cbn [map]; constructor.
      + destruct H as (H1 & H2 & _ & _ & _ & _ & _ & H3). unfold frame_ent, to_block. cbn [fst snd]. rewrite H2. split; [exact H1|]. split; [|exact H3].
        right. exists r. split; [reflexivity|]. split; [exact Rr|]. apply HB. now left.
      + apply IH. intros x Hx. apply HB. now right.
  Qed.
End Ready.

Lemma concat_cons_perm (frames : str -> list str) tops :
  Permutation (concat (map (fun r => r :: frames r) tops)) (tops ++ concat (map frames tops)).
Proof.
  induction tops as [|r tops IH]; [constructor|]. cbn [map concat app]. constructor. rewrite IH.
  rewrite !app_assoc. apply Permutation_app_tail, Permutation_app_comm.
Qed.
Lemma set_overwrite_reads ov b b' : same_read b b' -> same_read b (set_overwrite ov b').
Proof. intros H n. destruct b'. exact (H n). Qed.
Lemma set_overwrite_places ov b b' l l' : Forall2 (same_place b b') l l' -> Forall2 (same_place b (set_overwrite ov b')) l l'.
Proof. intros H. destruct b'. exact H. Qed.
Definition unlock (e : ent) : ent := match e with (k, i, p, b) => (k, i, p, set_overwrite true b) end.
Lemma tcoll_overwrite l v sd sc un g : c_set_overwrite true (tcoll l v sd sc un g)
  = tcoll (map unlock l) v sd sc un g.
Proof.
  unfold c_set_overwrite, set_dict, tcoll. cbn [c_dict c_lower c_child c_vis c_order c_std c_scope c_uni c_gram].
  assert (map ekey (map unlock l) = map ekey l) as ->.
  { rewrite map_map. apply map_ext. intros [[[k i] p] b]. reflexivity. }
  f_equal.
  - rewrite !map_map. apply map_ext_in. intros [[[k i] p] b] He. cbn [fst snd ekey eblk].
    assert (smem k (map ekey l) = true) as ->; [|reflexivity]. apply smem_In. apply in_map_iff. exists (k, i, p, b). auto.
  - rewrite map_map. apply map_ext. intros [[[k i] p] b]. reflexivity.
Qed.
Lemma tcoll_grammar l v sd sc un g g' : c_set_grammar g' (tcoll l v sd sc un g) = tcoll l v sd sc un g'.
Proof. reflexivity. Qed.

(** The grammar is the one that is asked for, or found. *)
Definition chosen (o : ropts) (g : grammar) (text : str) : Prop :=
  ro_grammar o = Some g \/ (ro_grammar o = None /\ (g = G20 \/ (g = G11 /\ firstn 10 text <> magic))).
Lemma chosen_first o g text : chosen o g text -> (g = G20 -> firstn 10 text = magic) -> exists r, attempts (ro_grammar o) text = g :: r.
Proof.
  intros H Hg. unfold attempts. destruct (str_eqb_spec (firstn 10 text) magic) as [E|E].
  - destruct H as [->|[-> [->|[-> N]]]]; cbn [try_list]; eauto. contradiction.
  - destruct H as [->|[-> [->|[-> N]]]]; cbn [try_list filter is_g20 negb]; eauto; [|now specialize (Hg eq_refl)].
    destruct g; cbn [is_g20 negb]; eauto. now specialize (Hg eq_refl).
Qed.
Lemma head_magic comment t : firstn 10 (file_head G20 comment ++ t) = magic.
Proof.
  unfold file_head. cbn [is_g20 andb]. destruct (str_eqb_spec (firstn 10 comment) magic) as [E|E]; cbn [negb].
  - cbn [app]. assert (length (firstn 10 comment) = 10) as L by (rewrite E; reflexivity).
    rewrite firstn_app. rewrite firstn_length in L. replace (10 - length comment) with 0 by lia. cbn [firstn]. now rewrite app_nil_r.
  - reflexivity.
Qed.
Lemma head_comment g comment : comment_text comment -> comment_text (file_head g comment).
Proof.
  intros (ls & H & E). unfold file_head. destruct (is_g20 g && _)%bool; [|now exists ls].
  exists (magic :: ls). split; [|cbn [map concat]; now rewrite E, <- app_assoc].
  constructor; [|exact H]. right. exists (tl magic). split; [reflexivity|]. cbn. split; intros X; repeat (destruct X as [X|X]; [discriminate|]); exact X.
Qed.

Lemma round_trip maxout maxn c comment : file_ready maxout maxn c -> comment_text comment ->
  exists text, write_out maxout [] comment c = Ret text /\
  forall o sc un, text <> [] -> ~ In 26%N text -> short_lines (ro_maxlength o) text -> ro_cbf o = false ->
    ro_maxn o = maxn -> chosen o (c_gram c) text ->
    exists c', read_star o text (new_coll (c_std c) sc un) = (c', Ret true) /\
      CWF c' /\ visible_ok c' /\ c_gram c' = c_gram c /\ c_std c' = c_std c /\ c_scope c' = sc /\ same_file c c'.
Proof.
  intros R Hc. pose proof R as (W & Hg & Hs & _).
  destruct (top_blocks_ok c W (c_order c)) as (keep & Et & Hk); [intros x; now rewrite (in_corder c W)|].
  destruct (write_tops_ok c W (filter keep (c_order c))) as (frames & Ew & Hf).
  { intros x Hx. apply filter_In in Hx as [Hx _]. now apply (in_corder c W). }
  pose proof (plan_keys c W (filter keep (c_order c)) frames keep eq_refl Hk Hf) as HP.
  assert (write_plan c = Ret (concat (map (fun r => section (c_std c) r (frames r)) (filter keep (c_order c))))) as Ep.
  { unfold write_plan. rewrite Et. exact Ew. }
  assert (without (fun x => ~ root c x) (c_order c) (filter keep (c_order c))) as Ht.
  { exists keep. split; [|reflexivity]. intros x Hx. specialize (Hk x Hx). destruct (keep x); split; intros X; try congruence.
    - exfalso. now apply X, Hk.
    - intros Y. now apply Hk in Y. }
  assert (forall r, In r (filter keep (c_order c)) -> without (fun x => ~ below c r x) (c_order c) (frames r)) as Hf'.
  { intros r Hr. destruct (Hf r Hr) as (kp & E & H). exists kp. split; [|exact E]. intros x Hx. specialize (H x Hx). destruct (kp x); split; intros X; try congruence.
    - exfalso. now apply X, H.
    - intros Y. now apply H in Y. }
  remember (filter keep (c_order c)) as tops eqn:Etops. clear Hk Et Ew Hf.
  destruct (tops_reads maxout maxn c R tops frames Ht Hf') as [xs Hxs].
  assert (Forall2 (fblock_writes maxout [] c frames) tops (map to_f xs)) as Hw.
  { clear -Hxs. induction Hxs; cbn [map]; constructor; [eapply top_writes; eassumption|assumption]. }
  exists (file_head (c_gram c) comment ++ ftext (map to_f xs)). split.
  { unfold write_out. replace (match c_gram c with GS2 => _ | _ => obind (write_plan c) (fun l => write_secs maxout [] l c) end)
      with (obind (write_plan c) (fun l => write_secs maxout [] l c)) by (destruct (c_gram c); congruence).
    rewrite Ep. cbn [obind]. rewrite (write_file_text maxout [] c frames Hs tops _ Hw). reflexivity. }
  intros o sc un Hne Hz Hl Hcbf Hmaxn Hch.
  set (text := file_head (c_gram c) comment ++ ftext (map to_f xs)) in *.
  assert (Forall (printed_file (c_gram c) maxout) (map to_f xs)) as Hpr.
  { clear -Hxs. induction Hxs; cbn [map]; constructor; [eapply top_printed; eassumption|assumption]. }
  assert (Forall2 (dblock_reads (c_gram c) maxn (c_std c)) (map to_f xs) (map to_y xs)) as Hb.
  { clear -Hxs. induction Hxs; cbn [map]; constructor; [eapply top_built; eassumption|assumption]. }
  set (l := concat (map dblock_ents (map to_y xs))).
  assert (map ekey l = concat (map (fun r => r :: frames r) tops)) as Hkeys.
  { unfold l. clear -Hxs. induction Hxs as [|r x tops xs H HF IH]; [reflexivity|]. cbn [map concat]. rewrite map_app, IH.
    rewrite (top_keys maxout maxn c frames r x H). reflexivity. }
  assert (Permutation (map ekey l) (ckeys c)) as HPk by (rewrite Hkeys, concat_cons_perm; exact HP).
  assert (NoDup (map ekey l)) as Nl by (eapply Permutation_NoDup; [symmetry; exact HPk|apply (cw_keys c W)]).
  assert (Forall (ent_good c) l) as Hgood.
  { unfold l. assert (forall ts ys, Forall2 (top_reads maxout maxn c frames) ts ys -> (forall r, In r ts -> In r tops) ->
      Forall (ent_good c) (concat (map dblock_ents (map to_y ys)))) as H; [|now apply (H tops xs)].
    clear -R Ht Hf'. intros ts ys Hts. induction Hts as [|r x ts xs H HF IH]; intros Hin; [constructor|].
    cbn [map concat]. apply Forall_app. split.
    - eapply top_ents; eauto. apply Hin. now left.
    - apply IH. intros r' Hr'. apply Hin. now right. }
  destruct (chosen_first o (c_gram c) text Hch) as [gs Ha].
  { intros E. unfold text. rewrite E. apply head_magic. }
  destruct (build_file (c_gram c) maxn (c_std c) _ _ Hb [] [] sc (unicode_grammar (c_gram c)) G20) as [Em Fl].
  { split; [constructor|]. split; [intros e []|intros e p []]. }
  { exact Nl. }
  cbn [app] in Em, Fl. fold l in Em, Fl.
  set (l' := map unlock l).
  exists (set_scope sc (set_scope Dictionary (tcoll l' (map ekey l) (c_std c) sc (unicode_grammar (c_gram c)) (c_gram c)))).
  assert (map ekey l' = map ekey l) as El.
  { unfold l'. rewrite map_map. apply map_ext. intros [[[k i] p] b]. reflexivity. }
  assert (flat l') as Fl'.
  { destruct Fl as (N1 & L1 & P1). unfold flat. rewrite El. split; [exact N1|]. split.
    - intros e He. unfold l' in He. apply in_map_iff in He as ([[[k i] p] b] & <- & He). exact (L1 _ He).
    - intros e p He E. unfold l' in He. apply in_map_iff in He as ([[[k i] q] b] & <- & He).
      destruct (P1 _ p He E) as ([[[k2 i2] q2] b2] & H1 & H2 & H3). exists (k2, i2, q2, set_overwrite true b2).
      split; [|split; assumption]. unfold l'. apply in_map_iff. exists (k2, i2, q2, b2). auto. }
  assert (CWF (set_scope sc (set_scope Dictionary (tcoll l' (map ekey l) (c_std c) sc (unicode_grammar (c_gram c)) (c_gram c))))) as Wc'.
  { apply scope_CWF, scope_CWF, tcoll_CWF, Fl'. }
  split; [|split; [exact Wc'|split; [|split; [reflexivity|split; [reflexivity|split; [reflexivity|]]]]]].
  - unfold read_star. destruct text as [|t0 tr] eqn:Etext; [congruence|]. rewrite <- Etext in *.
    assert (input_text o text = text) as -> by (unfold input_text; rewrite Hcbf; now apply cut_z_id).
    apply too_long_None in Hl. rewrite Hl, Ha. cbn [try_grammars].
    assert (parse_input (c_gram c) maxn text (tcoll [] [] (c_std c) sc (unicode_grammar (c_gram c)) G20)
            = (tcoll l' (map ekey l) (c_std c) sc (unicode_grammar (c_gram c)) G20, Ret tt)) as Hpi.
    { unfold parse_input. unfold text. rewrite (ffile_parse (c_gram c) maxout _ _ Hpr (head_comment _ _ Hc)). cbn [fst snd].
      rewrite Em. now rewrite tcoll_overwrite. }
    rewrite Hmaxn. change (c_set_characterset (unicode_grammar (c_gram c)) (new_coll (c_std c) sc un))
      with (tcoll [] [] (c_std c) sc (unicode_grammar (c_gram c)) G20). rewrite Hpi. reflexivity.
  - apply scope_visible. apply scope_CWF, tcoll_CWF, Fl'.
  - set (c' := set_scope sc _) in *.
    assert (ckeys c' = map ekey l) as Ek by (rewrite <- El; apply (tcoll_keys l' (map ekey l') (c_std c) sc true (c_gram c))).
    assert (forall k, In k (ckeys c) -> exists nm p b, In (k, nm, p, b) l) as Hex.
    { intros k Hk. apply (Permutation_in k (Permutation_sym HPk)) in Hk. apply in_map_iff in Hk as ([[[k' nm] p] b] & E & H). cbn in E. subst. eauto. }
    assert (forall k nm p b, In (k, nm, p, b) l -> entry_of c' k = Some (PC nm p)) as Hent.
    { intros k nm p b H. unfold entry_of. apply (dget_In_NoDup str_eqb str_eqb_spec).
      - change (NoDup (map fst (c_child c'))). apply (table_NoDup c' Wc').
      - change (c_child c') with (map (fun e => (ekey e, epc e)) l'). apply in_map_iff. exists (k, nm, p, set_overwrite true b). split; [reflexivity|].
        unfold l'. apply in_map_iff. exists (k, nm, p, b). auto. }
    rewrite Forall_forall in Hgood.
    assert (forall k nm, id_of k c = Ret nm -> exists q, entry_of c k = Some (PC nm q)) as Hid.
    { intros k nm. unfold id_of, entry_of. destruct (dget str_eqb k (c_child c)) as [[i q]|]; [|discriminate]. cbn. intros X. injection X as <-. eauto. }
    assert (forall k, In k (ckeys c') <-> In k (ckeys c)) as Hks.
    { intros k. rewrite Ek. split; intros H; [now apply (Permutation_in k HPk)|now apply (Permutation_in k (Permutation_sym HPk))]. }
    split; [now rewrite Ek|]. split; [|split; [|split]].
    + intros k Hr. destruct (Hex k (root_key c k W Hr)) as (nm & p & b & H). rewrite (Hent _ _ _ _ H).
      destruct (Hgood _ H) as (H1 & H2 & _). destruct H2 as [[-> _]|(r & -> & _ & B)]; [|now destruct (root_below c W k r Hr B)].
      destruct (Hid k nm H1) as (q & E). rewrite E. destruct Hr as (i & Hi).
      unfold entry_of in E. apply (dget_In str_eqb str_eqb_spec) in E. injection (entry_unique c W k _ _ Hi E) as _ <-. reflexivity.
    + intros r x Hr B. destruct (below_keys c W r x B) as [_ Hx]. destruct (Hex x Hx) as (nm & p & b & H). rewrite (Hent _ _ _ _ H).
      destruct (Hgood _ H) as (H1 & H2 & _). destruct (Hid x nm H1) as (q & E). exists nm, q. split; [exact E|].
      destruct H2 as [[_ X]|(r' & -> & Hr' & B')]; [now destruct (root_below c W x r X B)|]. now rewrite (root_unique c W r r' x Hr Hr' B B').
    + exists tops, frames. split; [exact Ht|]. split; [exact Hf'|]. change (c_order c') with (map ekey l'). now rewrite El.
    + intros k b Hb'. assert (In (lower k) (ckeys c)) as Hkk.
      { apply (c_get_spec c k b W) in Hb'. unfold ckeys. apply in_map_iff. exists (lower k, b). auto. }
      destruct (Hex (lower k) Hkk) as (nm & p & b2 & H). destruct (Hgood _ H) as (_ & _ & b1 & G & Wb & Sr & Sp).
      rewrite c_get_low in G. assert (b1 = b) as -> by congruence.
      exists (set_overwrite true b2). split; [|split; [|split; [now apply set_overwrite_reads|]]].
      * apply (c_get_spec c' k _ Wc'). change (c_dict c') with (map (fun e => (ekey e, eblk e)) l'). apply in_map_iff.
        exists (lower k, nm, p, set_overwrite true b2). split; [reflexivity|]. unfold l'. apply in_map_iff. exists (lower k, nm, p, b2). auto.
      * destruct b2. unfold set_overwrite. cbn. eapply wf_settings; eauto.
      * destruct b2. apply (set_overwrite_places true) in Sp. exact Sp.
Qed.
