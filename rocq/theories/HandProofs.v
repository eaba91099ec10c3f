(** Reading a file whose blocks and frames have different names. *)
From Coq Require Import String Ascii List NArith ZArith Bool Lia Permutation PeanoNat.
From Verif Require Import PyBase PyFacts StarBlockModel StarBlockSpec StarBlockProofs2 ScanModel ReadModel ReadSpec ReadProofs2 ParseModel CollectionModel FileModel
  CollectionSpec ParseSpec FileSpec GrammarSpec GrammarProofs GrammarProofs2 GrammarProofs3 GrammarProofs4 CollectionProofs CollectionProofs2 CollectionProofs3 CollectionProofs4 FileProofs2 FileProofs3 WholeSpec WholeProofs7 HandSpec.
Import ListNotations.
Open Scope nat_scope.

(** ** Values as the grammar delivers them *)
Lemma parsed_dict l : forall d, Forall (fun kv => parsed (snd kv)) l -> Forall (fun kv => parsed (snd kv)) d -> Forall (fun kv => parsed (snd kv)) (pairs_dict l d).
Proof.
  induction l as [|[k v] l IH]; intros d H Hd; [exact Hd|]. inversion H as [|? ? H1 H2]; subst. cbn [pairs_dict]. apply IH; [exact H2|]. clear IH H H2.
  induction Hd as [|[k' v'] d Hk Hd IH]; cbn [dset].
  - constructor; [exact H1|constructor].
  - destruct (str_eqb k k'); constructor; try assumption; exact H1.
Qed.
Scheme value_toks_min := Minimality for value_toks Sort Prop with list_toks_min := Minimality for list_toks Sort Prop with table_toks_min := Minimality for table_toks Sort Prop.
Lemma toks_parsed g : forall v ts, value_toks g v ts -> parsed v.
Proof.
  apply (value_toks_min g (fun v _ => parsed v) (fun l _ => Forall parsed l) (fun l _ => Forall (fun kv => parsed (snd kv)) l)); intros; try constructor; try assumption; try (apply Forall_app; split; [assumption|repeat constructor; assumption]).
  - apply parsed_dict; [assumption|constructor].
  - constructor.
Qed.
Lemma values_parsed g vs ts : values_toks g vs ts -> Forall parsed vs.
Proof. induction 1; constructor; [eapply toks_parsed; eassumption|assumption]. Qed.
(** Items as the grammar delivers them, except that a loop may have no names. *)
Definition item_given (it : item) : Prop := match it with Kv _ v => parsed v | Lp _ vs => vs <> [] /\ Forall parsed vs end.
Lemma items_given g l ts : items_toks g l ts -> Forall item_given l.
Proof.
  induction 1 as [|i ts l ts' H _ IH]; constructor; [|exact IH]. destruct H as [n v ts V|m ns vs ts Hne V]; cbn; [eapply toks_parsed; eassumption|split; [exact Hne|eapply values_parsed; eassumption]].
Qed.
Lemma contents_given g b cs ts : contents_toks g b cs ts -> forall h x, In x (frames_in h cs) -> Forall item_given (match x with (_, _, its) => its end).
Proof.
  intros H h. assert (Forall item_given (own_items cs) /\ forall x, In x (frames_in h cs) -> Forall item_given (match x with (_, _, its) => its end)) as [_ K]; [|exact K].
  induction H as [b|b l ts cs ts' _ Hl _ [I1 I2]|b hd l ts e cs ts' _ _ [I1 _] _ [J1 J2]]; cbn [own_items frames_in flat_map] in *.
  - split; [constructor|intros x []].
  - split; [apply Forall_app; split; [eapply items_given; eassumption|exact I1]|exact I2].
  - split; [exact J1|]. intros x [<-|Hx]; [exact I1|now apply J2].
Qed.
Lemma own_given g b cs ts : contents_toks g b cs ts -> Forall item_given (own_items cs).
Proof.
  induction 1 as [b|b l ts cs ts' _ Hl _ I1|b hd l ts e cs ts' _ _ I1 _ J1]; cbn [own_items flat_map] in *; [constructor|apply Forall_app; split; [eapply items_given; eassumption|exact I1]|exact J1].
Qed.
Lemma parts_given g ds ts : blocks_toks g ds ts -> forall x, In x (flat_map parts ds) -> Forall item_given (match x with (_, _, its) => its end).
Proof.
  induction 1 as [|h cs ts bs ts' Hc _ IH]; intros x Hx; [destruct Hx|]. cbn [flat_map] in Hx. apply in_app_iff in Hx as [Hx|Hx]; [|now apply IH].
  unfold parts in Hx. cbn [d_name d_contents] in Hx. destruct Hx as [<-|Hx]; [eapply own_given; eassumption|eapply contents_given; eassumption].
Qed.
Lemma names_in_contents l n : In n (all_names (own_items l)) -> In n (flat_map content_names l).
Proof.
  unfold all_names, own_items. intros H. apply in_flat_map in H as (it & Hi & Hn). apply in_flat_map in Hi as (x & Hx & Hi). apply in_flat_map. exists x. split; [exact Hx|].
  destruct x as [i|m l']; [|destruct Hi]. cbn [content_names]. apply in_flat_map. exists it. split; [exact Hi|]. destruct it; exact Hn.
Qed.
Lemma part_names ds x n : In x (flat_map parts ds) -> In n (all_names (match x with (_, _, its) => its end)) -> In n (all_datanames ds).
Proof.
  intros Hx Hn. apply in_flat_map in Hx as (d & Hd & Hx). unfold all_datanames. apply in_flat_map. exists d. split; [exact Hd|].
  destruct Hx as [<-|Hx]; [now apply names_in_contents|]. unfold frames_in in Hx. apply in_flat_map in Hx as (y & Hy & Hx). destruct y as [i|m l]; [destruct Hx|].
  destruct Hx as [<-|[]]. apply in_flat_map. exists (CFrame m l). split; [exact Hy|]. cbn [content_names]. now apply names_in_contents.
Qed.
Lemma part_heading ds x : In x (flat_map parts ds) -> In (part_name x) (all_headings ds).
Proof.
  intros Hx. apply in_flat_map in Hx as (d & Hd & Hx). unfold all_headings. apply in_flat_map. exists d. split; [exact Hd|].
  destruct Hx as [<-|Hx]; [now left|]. right. unfold frames_in in Hx. apply in_flat_map in Hx as (y & Hy & Hx). destruct y as [i|m l]; [destruct Hx|].
  destruct Hx as [<-|[]]. apply in_flat_map. exists (CFrame m l). split; [exact Hy|now left].
Qed.

(** ** What a part becomes *)
Definition stored (mx : Z) (un : bool) (its : list item) (b : block) : Prop :=
  read_block its (empty_block false mx un) = (b, Ret tt) /\ WF b /\ Forall (holds_item b) its /\ b_keys b = map lower (all_names its)
  /\ b_true b = map (fun n => (lower n, n)) (all_names its) /\ b_order b = layout 1 its /\ b_loops b = loop_layout 1 its.
Lemma part_stored sd maxn n p its un : part_fits sd maxn (n, p, its) -> Forall item_given its -> Forall is_dataname (all_names its) -> exists b, stored (names_limit sd maxn p) un its b.
Proof.
  intros (_ & H1 & H2 & H3) H4 H5. assert (Forall item_ok its /\ Forall loop_full its /\ Forall item_whole its) as (F1 & F2 & F3).
  { clear -H1 H4 H5. induction its as [|it its IH]; [split; [constructor|split; constructor]|]. inversion H1; subst. inversion H4; subst. unfold all_names in H5. cbn [flat_map] in H5. apply Forall_app in H5 as [H5 H5x].
    destruct (IH ltac:(assumption) ltac:(assumption) H5x) as (I1 & I2 & I3). destruct it as [m v|ns vs]; cbn [item_fits item_given ReadSpec.item_names] in *.
    - inversion H5; subst. split; [constructor; [split; assumption|exact I1]|]. split; constructor; cbn; auto.
    - split; [constructor; [cbn; tauto|exact I1]|]. split; constructor; cbn; try tauto. }
  destruct (read_block_full its (names_limit sd maxn p) un F1 F2) as (E & R & _). destruct (read_block its (empty_block false (names_limit sd maxn p) un)) as [b o] eqn:Eb. cbn [fst snd] in *.
  assert (o = Ret tt) as -> by (apply E; auto). destruct (R eq_refl) as (R1 & R2 & R3 & R4 & R5 & R6). exists b. unfold stored. rewrite Eb. tauto.
Qed.

(** ** Building *)
Lemma read_items_app a : forall c b b', read_items a b = (b', Ret tt) -> read_items (a ++ c) b = read_items c b'.
Proof.
  induction a as [|x a IH]; intros c b b' H; cbn [read_items app] in *; [now injection H as <-|]. destruct (read_item x b) as [b1 [t|e]]; [now apply IH|discriminate].
Qed.
Lemma read_items_split a : forall c b b', read_items (a ++ c) b = (b', Ret tt) -> exists b1, read_items a b = (b1, Ret tt) /\ read_items c b1 = (b', Ret tt).
Proof.
  induction a as [|x a IH]; intros c b b' H; cbn [read_items app] in *; [exists b; now split|]. destruct (read_item x b) as [b1 [t|e]]; [now apply IH|discriminate].
Qed.
Lemma frame_alone g maxn nm l b' : length nm <= 75 -> fix_name true nm = nm -> grouped l -> (forall n' l', ~ In (CFrame n' l') l) ->
  read_items (own_items l) (empty_block false 75 (unicode_grammar g)) = (b', Ret tt) ->
  build_frame g maxn (CFrame nm l) = Ret (tcoll [(lower nm, nm, None, b')] [lower nm] StdCif Instance (unicode_grammar g) G20).
Proof.
  intros Hl Hf Hg Ho Hr. cbn [build_frame]. rewrite (one_block nm StdCif (unicode_grammar g) maxn Hl Hf). cbn [limit].
  destruct Hg as [|its cs Hcs Hg|n' l' cs]; [cbn in Hr; injection Hr as <-; reflexivity| |exfalso; eapply Ho; now left].
  destruct cs as [|[its'|n' l'] cs]; [|destruct Hcs|exfalso; eapply Ho; right; now left].
  cbn [own_items flat_map] in Hr. rewrite app_nil_r in Hr. erewrite (first_items nm (lower nm)); [reflexivity|reflexivity|apply lower_idem|exact Hr].
Qed.
(** The frames of a data block with the blocks that they become. *)
Definition frame_stored (g : grammar) (x : part) (fb : str * block) : Prop :=
  match x with (nm, _, its) => fst fb = nm /\ length nm <= 75 /\ fix_name true nm = nm /\ read_items its (empty_block false 75 (unicode_grammar g)) = (snd fb, Ret tt) end.
Lemma build_mixed g maxn nm i cs : forall fbs b b' l v sd, Forall2 (frame_stored g) (frames_in nm cs) fbs -> grouped cs -> (forall n l n' l', In (CFrame n l) cs -> ~ In (CFrame n' l') l) ->
  read_items (own_items cs) b = (b', Ret tt) -> flat ((lower nm, i, None, b) :: l) -> NoDup (map ekey ((lower nm, i, None, b) :: l) ++ map (fun fb => lower (fst fb)) fbs) ->
  build_contents g maxn nm cs (tcoll ((lower nm, i, None, b) :: l) v sd Instance true G20) (lower nm)
  = Ret (tcoll ((lower nm, i, None, b') :: l ++ map (frame_ent (lower nm)) fbs) (v ++ map (fun fb => lower (fst fb)) fbs) sd Instance true G20, lower nm).
Proof.
  induction cs as [|x cs IH]; intros fbs b b' l v sd HF Hg Ho Hr Hl N.
  - cbn in HF, Hr. inversion HF; subst. injection Hr as <-. cbn [build_contents map]. now rewrite !app_nil_r.
  - destruct x as [its|n fl].
    + cbn [own_items flat_map] in Hr. apply read_items_split in Hr as (b1 & H1 & H2). cbn [build_contents].
      rewrite (first_items _ (lower nm) i None b b1); [|unfold target; destruct (unicode_grammar g); [apply lower_idem|reflexivity]|apply lower_idem|exact H1]. cbn [obind].
      apply IH; [exact HF|now inversion Hg|intros; eapply Ho; right; eassumption|exact H2| |exact N].
      destruct Hl as (L1 & L2 & L3). split; [exact L1|]. split; [intros e [<-|He]; [apply lower_idem|apply L2; now right]|].
      intros e p [<-|He] Ep; [discriminate|]. destruct (L3 e p (or_intror He) Ep) as (e' & [<-|He'] & E1 & E2); [exists (lower nm, i, None, b1); split; [now left|split; [exact E1|reflexivity]]|exists e'; split; [now right|now split]].
    + cbn [frames_in flat_map app] in HF. inversion HF as [|y fb ys fbs' Hf HF']; subst. destruct Hf as (E & F1 & F2 & F3). destruct fb as [n' fb]. cbn [fst snd] in *. subst n'.
      assert (~ In (lower n) (map ekey ((lower nm, i, None, b) :: l))) as Hn. { apply NoDup_app_iff in N as (_ & _ & N). intros X. apply (N _ X). now left. }
      assert (grouped fl /\ grouped cs) as [Gf Gc] by (inversion Hg; now split).
      cbn [build_contents]. rewrite (frame_alone g maxn n fl fb F1 F2 Gf); [|intros n' l' X; eapply Ho; [now left|exact X]|exact F3]. cbn [obind].
      assert (D : forall x, In x (map ekey ((lower nm, i, None, b) :: l)) -> ~ In x (map ekey [(lower n, n, @None str, fb)])). { intros x Hx [<-|[]]. contradiction. }
      unfold add_frame. rewrite tcoll_merge; [|exact Hl|apply flat_one, lower_idem|exact D|cbn; now rewrite lower_idem].
      rewrite tcoll_merged_key by exact D. cbn [obind fst snd map under app ekey].
      change (tcoll ((lower nm, i, None, b) :: l ++ [(lower n, n, Some (lower nm), fb)])) with (tcoll ((lower nm, i, None, b) :: l ++ [frame_ent (lower nm) (n, fb)])).
      rewrite (IH fbs' b b' (l ++ [frame_ent (lower nm) (n, fb)]) (v ++ [lower n]) sd HF' Gc).
      * cbn [map fst]. rewrite <- !app_assoc. reflexivity.
      * intros; eapply Ho; right; eassumption.
      * exact Hr.
      * apply (flat_frame (lower nm) i b l (n, fb) Hl Hn).
      * cbn [map app ekey fst] in N |- *. rewrite map_app. cbn [map app ekey frame_ent fst]. rewrite <- app_assoc. exact N.
Qed.
Definition block_stored (g : grammar) (maxn : Z) (sd : standard) (d : dblock) (y : str * list (str * block) * block) : Prop :=
  match y with (nm, fbs, b') => nm = d_name d /\ length nm <= 75 /\ fix_name true nm = nm /\ Forall2 (frame_stored g) (frames_in nm (d_contents d)) fbs
    /\ read_block (own_items (d_contents d)) (empty_block false (limit sd maxn) true) = (b', Ret tt) end.
Lemma build_block g maxn sd d y : block_stored g maxn sd d y -> grouped (d_contents d) -> one_level d -> NoDup (map ekey (dblock_ents y)) ->
  build_dblock g maxn sd d = Ret (tcoll (dblock_ents y) (map ekey (dblock_ents y)) sd Instance true G20).
Proof.
  destruct y as [[nm fbs] b']. intros (E & H1 & H2 & H3 & H4) Hg Ho N. apply read_block_split in H4 as [H4 H5].
  assert (NoDup (lower nm :: map (fun fb => lower (fst fb)) fbs)) as N'. { unfold dblock_ents in N. cbn [map ekey] in N. rewrite map_map in N. exact N. }
  unfold build_dblock. rewrite <- E. rewrite (one_block nm sd true maxn H1 H2).
  match goal with |- obind ?A _ = _ => assert (A = Ret (tcoll ((lower nm, nm, None, b') :: [] ++ map (frame_ent (lower nm)) fbs) ([lower nm] ++ map (fun fb => lower (fst fb)) fbs) sd Instance true G20, lower nm)) as -> end.
  { apply (build_mixed g maxn nm nm (d_contents d) fbs _ b' [] [lower nm] sd H3 Hg Ho H4); [apply flat_one, lower_idem|exact N']. }
  cbn [obind fst snd app].
  assert (lower (target g nm (lower nm)) = lower nm) as Lt by (unfold target; destruct (unicode_grammar g); [apply lower_idem|reflexivity]).
  unfold c_get. rewrite Lt. cbn [tcoll c_lower c_dict map ekey eblk].
  assert (forall l, smem (lower nm) (lower nm :: l) = true) as Hm by (intros l; apply smem_In; now left). rewrite Hm.
  cbn [dget]. rewrite str_eqb_refl, H5. f_equal. unfold set_dict, tcoll, dblock_ents.
  cbn [c_dict c_lower c_child c_vis c_order c_std c_scope c_uni c_gram map ekey eblk epc dset]. rewrite str_eqb_refl, !map_map. reflexivity.
Qed.
Lemma build_all g maxn sd ds ys : Forall2 (block_stored g maxn sd) ds ys -> Forall (fun d => grouped (d_contents d)) ds -> Forall one_level ds -> forall l v sc un gr,
  flat l -> NoDup (map ekey (l ++ concat (map dblock_ents ys))) ->
  merge_blocks g maxn ds (tcoll l v sd sc un gr)
  = (tcoll (l ++ concat (map dblock_ents ys)) (v ++ map ekey (concat (map dblock_ents ys))) sd sc un gr, Ret tt)
  /\ flat (l ++ concat (map dblock_ents ys)).
Proof.
  induction 1 as [|x y xs ys H HF IH]; intros Gr Ho l v sc un gr Hl N; [cbn [map concat]; rewrite !app_nil_r; now split|].
  inversion Gr as [|? ? G1 G2]; subst. inversion Ho as [|? ? O1 O2]; subst.
  cbn [map concat merge_blocks]. cbn [map concat] in N. rewrite app_assoc, map_app in N. pose proof N as N0.
  apply NoDup_app_iff in N as (N1 & _ & _). rewrite map_app in N1. pose proof N1 as N1'. apply NoDup_app_iff in N1' as (_ & N2 & D).
  change (c_std (tcoll l v sd sc un gr)) with sd. rewrite (build_block g maxn sd x y H G1 O1 N2).
  rewrite tcoll_merge; [|exact Hl|now apply dblock_flat|exact D|reflexivity].
  assert (map (under None) (dblock_ents y) = dblock_ents y) as ->.
  { rewrite <- (map_id (dblock_ents y)) at 2. apply map_ext. intros [[[k i] [q|]] b]; reflexivity. }
  destruct (IH G2 O2 (l ++ dblock_ents y) (v ++ map ekey (dblock_ents y)) sc un gr) as [E F].
  - apply flat_app; [exact Hl|now apply dblock_flat|exact D].
  - rewrite map_app. exact N0.
  - rewrite E. rewrite <- !app_assoc, !map_app in *. split; [reflexivity|exact F].
Qed.
Lemma upto_file g : forall fuel acc st ds, parse_more fuel g acc st = Ret ds -> parse_upto fuel g acc st = (ds, Ret tt).
Proof.
  induction fuel as [|fuel IH]; intros acc st ds H; cbn [parse_more parse_upto] in *; destruct (peek g [DataHeading; End] st) as [[t st1]|e]; cbn [obind] in H; try discriminate; destruct (tok_eqb t DataHeading); try discriminate.
  - destruct (take g End st1); cbn [obind] in H; [now injection H as <-|discriminate].
  - destruct (parse_dblock g st1) as [y|e]; cbn [obind] in H; [now apply IH|discriminate].
  - destruct (take g End st1); cbn [obind] in H; [now injection H as <-|discriminate].
Qed.
