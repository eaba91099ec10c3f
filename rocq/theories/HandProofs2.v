(** Reading a whole file written by hand. *)
From Coq Require Import String Ascii List NArith ZArith Bool Lia Permutation PeanoNat.
From Verif Require Import PyBase PyFacts StarBlockModel StarBlockSpec StarBlockProofs2 ScanModel ReadModel ReadSpec ReadProofs2 ParseModel CollectionModel FileModel
  CollectionSpec ParseSpec FileSpec GrammarSpec GrammarProofs GrammarProofs2 GrammarProofs3 GrammarProofs4 CollectionProofs CollectionProofs2 CollectionProofs3 CollectionProofs4 FileProofs2 FileProofs3 WholeSpec WholeProofs7 HandSpec HandProofs.
Import ListNotations.
Open Scope nat_scope.

Lemma holds_overwrite ov b it : holds_item b it -> holds_item (set_overwrite ov b) it.
Proof. destruct b. destruct it; exact (fun H => H). Qed.
(** An entry of the collection is what the part says. *)
Definition ent_holds (x : part) (e : ent) : Prop :=
  match x, e with (n, p, its), (k, i, q, b) => k = lower n /\ i = n /\ q = option_map lower p /\ WF b /\ Forall (holds_item b) its /\ b_keys b = map lower (all_names its)
    /\ b_true b = map (fun n => (lower n, n)) (all_names its) /\ b_order b = layout 1 its /\ b_loops b = loop_layout 1 its end.
Section File.
Context (g : grammar) (sd : standard) (maxn : Z).
Definition part_ok (x : part) : Prop := part_fits sd maxn x /\ fix_name true (part_name x) = part_name x
  /\ Forall item_given (match x with (_, _, its) => its end) /\ Forall is_dataname (all_names (match x with (_, _, its) => its end)).
Lemma frame_ready h x : part_ok x -> (exists n l, x = (n, Some h, l)) -> exists fb, frame_stored g x fb /\ ent_holds x (frame_ent (lower h) fb).
Proof.
  intros (H1 & H2 & H3 & H4) (n & its & ->). destruct (part_stored sd maxn n (Some h) its (unicode_grammar g) H1 H3 H4) as (b & Hb & S). exists (n, b).
  cbn [part_name] in H2. destruct H1 as (L & _). apply read_block_split in Hb as [Hb _]. split; [|cbn; tauto]. cbn. cbn [names_limit] in Hb. auto.
Qed.
Lemma frames_ready h l : Forall part_ok l -> (forall x, In x l -> exists n its, x = (n, Some h, its)) ->
  exists fbs, Forall2 (frame_stored g) l fbs /\ Forall2 ent_holds l (map (frame_ent (lower h)) fbs).
Proof.
  induction 1 as [|x l H _ IH]; intros Hp; [exists []; split; constructor|]. destruct IH as (fbs & I1 & I2); [intros; apply Hp; now right|].
  destruct (frame_ready h x H (Hp x (or_introl eq_refl))) as (fb & F1 & F2). exists (fb :: fbs). split; constructor; assumption.
Qed.
Lemma frames_shape h l x : In x (frames_in h l) -> exists n its, x = (n, Some h, its).
Proof. unfold frames_in. intros H. apply in_flat_map in H as ([i|n fl] & _ & H); [destruct H|]. destruct H as [<-|[]]. now exists n, (own_items fl). Qed.
Lemma block_ready d : Forall part_ok (parts d) -> exists y, block_stored g maxn sd d y /\ Forall2 ent_holds (parts d) (dblock_ents y).
Proof.
  intros H. inversion H as [|x l H1 H2]; subst. destruct (frames_ready (d_name d) _ H2 (fun x => frames_shape (d_name d) _ x)) as (fbs & F1 & F2).
  destruct H1 as (H1 & H3 & H4 & H5). destruct (part_stored sd maxn (d_name d) None _ true H1 H4 H5) as (b & Hb & S). exists (d_name d, fbs, b). destruct H1 as (L & _). cbn [part_name] in H3.
  split.
  - cbn. assert (names_limit sd maxn None = limit sd maxn) as E by (destruct sd; reflexivity). rewrite E in Hb. auto.
  - constructor; [cbn; tauto|exact F2].
Qed.
Lemma blocks_ready ds : Forall part_ok (flat_map parts ds) -> exists ys, Forall2 (block_stored g maxn sd) ds ys /\ Forall2 ent_holds (flat_map parts ds) (concat (map dblock_ents ys)).
Proof.
  induction ds as [|d ds IH]; intros H; [exists []; split; constructor|]. cbn [flat_map] in H. apply Forall_app in H as [H1 H2]. destruct (IH H2) as (ys & Y1 & Y2).
  destruct (block_ready d H1) as (y & Z1 & Z2). exists (y :: ys). split; [now constructor|]. cbn [flat_map map concat]. now apply Forall2_app.
Qed.
Lemma ent_keys xs l : Forall2 ent_holds xs l -> map ekey l = map (fun x => lower (part_name x)) xs.
Proof. induction 1 as [|[[n p] its] [[[k i] q] b] xs l H _ IH]; [reflexivity|]. cbn [map]. rewrite IH. f_equal. exact (proj1 H). Qed.
Lemma ent_unlock xs l : Forall2 ent_holds xs l -> Forall2 ent_holds xs (map unlock l).
Proof.
  induction 1 as [|[[n p] its] [[[k i] q] b] xs l H _ IH]; [constructor|]. constructor; [|exact IH]. destruct H as (H1 & H2 & H3 & H4 & H5 & H6). cbn [unlock ent_holds].
  split; [exact H1|]. split; [exact H2|]. split; [exact H3|]. split; [destruct b; unfold set_overwrite; cbn; eapply wf_settings; eauto|].
  split; [eapply Forall_impl; [|exact H5]; intros it; apply holds_overwrite|]. destruct b. exact H6.
Qed.
End File.

Theorem read_by_hand g s ds o sd sc un : parse_file g s = Ret ds -> Forall one_level ds ->
  NoDup (map (fun x => lower (part_name x)) (flat_map parts ds)) -> Forall (part_fits sd (ro_maxn o)) (flat_map parts ds) ->
  s <> [] -> ~ In 26%N s -> short_lines (ro_maxlength o) s -> ro_cbf o = false -> chosen o g s -> (g = G20 -> firstn 10 s = magic) ->
  exists c, read_star o s (new_coll sd sc un) = (c, Ret true) /\ CWF c /\ visible_ok c /\ c_gram c = g /\ c_std c = sd /\ c_scope c = sc
    /\ ckeys c = map (fun x => lower (part_name x)) (flat_map parts ds) /\ c_order c = ckeys c /\ Forall (holds_part c) (flat_map parts ds).
Proof.
  intros HP Ho N HF Hne Hz Hl Hcbf Hch Hm. pose proof (file_grouped g s ds HP) as Gr.
  destruct (parse_file_toks g s ds HP) as (ts & r & _ & _ & B). destruct (read_names g s ds HP) as [Nn Nh]. rewrite Forall_forall in Nn, Nh.
  assert (Forall (part_ok sd (ro_maxn o)) (flat_map parts ds)) as Hok.
  { apply Forall_forall. intros x Hx. rewrite Forall_forall in HF. split; [now apply HF|]. split; [|split].
    - apply (fix_heading g). apply Nh. now apply part_heading.
    - exact (parts_given g ds ts B x Hx).
    - apply Forall_forall. intros n Hn. destruct (Nn n (part_names ds x n Hx Hn)) as (w & -> & _). now exists w. }
  destruct (blocks_ready g sd (ro_maxn o) ds Hok) as (ys & Y1 & Y2). set (l := concat (map dblock_ents ys)) in *.
  pose proof (ent_keys _ _ Y2) as Ek. assert (NoDup (map ekey l)) as Nl by (rewrite Ek; exact N).
  destruct (build_all g (ro_maxn o) sd ds ys Y1 Gr Ho [] [] sc (unicode_grammar g) G20) as [Em Fl].
  { split; [constructor|]. split; [intros e []|intros e p []]. }
  { exact Nl. }
  cbn [app] in Em, Fl. fold l in Em, Fl. set (l' := map unlock l).
  assert (map ekey l' = map ekey l) as El. { unfold l'. rewrite map_map. apply map_ext. intros [[[k i] p] b]. reflexivity. }
  assert (flat l') as Fl'.
  { destruct Fl as (N1 & L1 & P1). unfold flat. rewrite El. split; [exact N1|]. split.
    - intros e He. unfold l' in He. apply in_map_iff in He as ([[[k i] p] b] & <- & He). exact (L1 _ He).
    - intros e p He E. unfold l' in He. apply in_map_iff in He as ([[[k i] q] b] & <- & He).
      destruct (P1 _ p He E) as ([[[k2 i2] q2] b2] & H1 & H2 & H3). exists (k2, i2, q2, set_overwrite true b2).
      split; [|split; assumption]. unfold l'. apply in_map_iff. exists (k2, i2, q2, b2). auto. }
  assert (Forall2 ent_holds (flat_map parts ds) l') as Y3 by (now apply ent_unlock).
  set (c := set_scope sc (set_scope Dictionary (tcoll l' (map ekey l) sd sc (unicode_grammar g) g))).
  assert (CWF c) as Wc. { apply scope_CWF, scope_CWF, tcoll_CWF, Fl'. }
  assert (ckeys c = map ekey l') as Ec by (apply (tcoll_keys l' (map ekey l') sd sc true g)).
  exists c. split; [|split; [exact Wc|split; [apply scope_visible; apply scope_CWF, tcoll_CWF, Fl'|split; [reflexivity|split; [reflexivity|split; [reflexivity|split; [|split]]]]]]].
  - destruct (chosen_first o g s Hch Hm) as [gs Ha].
    unfold read_star. destruct s as [|t0 tr] eqn:Es; [congruence|]. rewrite <- Es in *.
    assert (input_text o s = s) as -> by (unfold input_text; rewrite Hcbf; now apply cut_z_id).
    apply too_long_None in Hl. rewrite Hl, Ha. cbn [try_grammars].
    assert (parse_input g (ro_maxn o) s (tcoll [] [] sd sc (unicode_grammar g) G20) = (tcoll l' (map ekey l) sd sc (unicode_grammar g) G20, Ret tt)) as Hpi.
    { unfold parse_input. unfold parse_file in HP. rewrite (upto_file g _ _ _ _ HP). cbn [fst snd]. rewrite Em. now rewrite tcoll_overwrite. }
    change (c_set_characterset (unicode_grammar g) (new_coll sd sc un)) with (tcoll [] [] sd sc (unicode_grammar g) G20). rewrite Hpi. reflexivity.
  - rewrite Ec, El. exact Ek.
  - rewrite Ec. reflexivity.
  - assert (forall x e, In (x, e) (combine (flat_map parts ds) l') -> ent_holds x e -> In e l' -> holds_part c x) as Hone.
    { intros [[n p] its] [[[k i] q] b] _ (-> & -> & -> & H4 & H5 & H6 & H7) He. split.
      - unfold entry_of. apply (dget_In_NoDup str_eqb str_eqb_spec); [apply (table_NoDup c Wc)|]. change (c_child c) with (map (fun e => (ekey e, epc e)) l').
        apply in_map_iff. now exists (lower n, n, option_map lower p, b).
      - exists b. split; [|tauto]. apply (c_get_spec c n b Wc). change (c_dict c) with (map (fun e => (ekey e, eblk e)) l'). apply in_map_iff. now exists (lower n, n, option_map lower p, b). }
    clear -Y3 Hone. assert (forall xs es, Forall2 ent_holds xs es -> incl (combine xs es) (combine (flat_map parts ds) l') -> incl es l' -> Forall (holds_part c) xs) as K.
    { induction 1 as [|x e xs es H _ IH]; intros I1 I2; [constructor|]. constructor.
      - apply (Hone x e); [apply I1; now left|exact H|apply I2; now left].
      - apply IH; [intros z Hz; apply I1; now right|intros z Hz; apply I2; now right]. }
    apply (K _ _ Y3); apply incl_refl.
Qed.

(** ** What is refused *)
Lemma long_block nm sd un maxn : 75 < length nm -> exists c e, new_block nm (empty_block false maxn false) true None (new_coll sd Instance un) = (c, Raise e).
Proof.
  intros H. unfold new_block. cbn [new_coll c_std c_lower c_dict c_child]. assert (Nat.ltb 75 (length nm) = true) as L by (apply Nat.ltb_lt; exact H).
  destruct sd; unfold setmaxnamelength; cbn [b_keys empty_block b_data existsb andb]; rewrite ?andb_false_r; rewrite L; eauto.
Qed.
Lemma first_items_inv t k i p b l v sd sc un g its c : lower t = k -> lower k = k ->
  add_items t its (tcoll ((k, i, p, b) :: l) v sd sc un g) = Ret c -> exists b', read_items its b = (b', Ret tt).
Proof.
  intros Ht Hk. unfold add_items, c_get. cbn [tcoll c_lower c_dict map ekey eblk]. rewrite Ht.
  assert (smem k (k :: map ekey l) = true) as -> by (apply smem_In; now left).
  cbn [dget]. rewrite str_eqb_refl. destruct (read_items its b) as [b' [[]|e]]; [now exists b'|discriminate].
Qed.
Lemma frame_inv g maxn nm l n : fix_name true nm = nm -> grouped l -> (forall n' l', ~ In (CFrame n' l') l) -> build_frame g maxn (CFrame nm l) = Ret n ->
  length nm <= 75 /\ exists b', read_items (own_items l) (empty_block false 75 (unicode_grammar g)) = (b', Ret tt).
Proof.
  intros Hf Hg Ho. cbn [build_frame]. destruct (le_lt_dec (length nm) 75) as [Hl|Hl]; [|destruct (long_block nm StdCif (unicode_grammar g) maxn Hl) as (c & e & ->); discriminate].
  rewrite (one_block nm StdCif (unicode_grammar g) maxn Hl Hf). cbn [limit].
  destruct Hg as [|its cs Hcs Hg|n' l' cs]; [split; [exact Hl|now eexists]| |exfalso; eapply Ho; now left].
  destruct cs as [|[its'|n' l'] cs]; [|destruct Hcs|exfalso; eapply Ho; right; now left]. intros H. split; [exact Hl|]. cbn [own_items flat_map]. rewrite app_nil_r.
  match type of H with obind ?A _ = _ => destruct A as [c|e] eqn:E; [|discriminate H] end.
  exact (first_items_inv nm (lower nm) nm None _ [] [lower nm] StdCif Instance (unicode_grammar g) G20 its c eq_refl (lower_idem nm) E).
Qed.
Definition reads (mx : Z) (un : bool) (its : list item) : Prop := exists b', read_items its (empty_block false mx un) = (b', Ret tt).
Lemma mixed_inv g maxn nm i cs : forall b l v sd y, Forall (fun x => fix_name true (part_name x) = part_name x) (frames_in nm cs) -> grouped cs -> (forall n l n' l', In (CFrame n l) cs -> ~ In (CFrame n' l') l) ->
  flat ((lower nm, i, None, b) :: l) -> NoDup (map ekey ((lower nm, i, None, b) :: l) ++ map (fun x => lower (part_name x)) (frames_in nm cs)) ->
  build_contents g maxn nm cs (tcoll ((lower nm, i, None, b) :: l) v sd Instance true G20) (lower nm) = Ret y ->
  (exists b', read_items (own_items cs) b = (b', Ret tt)) /\ Forall (fun x => reads 75 (unicode_grammar g) (match x with (_, _, its) => its end)) (frames_in nm cs).
Proof.
  induction cs as [|x cs IH]; intros b l v sd y HF Hg Ho Hl N H; [split; [now exists b|constructor]|].
  destruct x as [its|n fl].
  - cbn [build_contents] in H. match type of H with obind ?A _ = _ => destruct A as [c|e] eqn:E; [|discriminate H] end. cbn [obind] in H.
    assert (lower (target g nm (lower nm)) = lower nm) as Et by (unfold target; destruct (unicode_grammar g); [apply lower_idem|reflexivity]).
    destruct (first_items_inv _ (lower nm) i None b l v sd Instance true G20 its c Et (lower_idem nm) E) as [b1 H1].
    rewrite (first_items _ (lower nm) i None b b1 l v sd Instance true G20 its Et (lower_idem nm) H1) in E. injection E as <-.
    destruct (IH b1 l v sd y) as [[b' I1] I2]; [exact HF|now inversion Hg|intros; eapply Ho; right; eassumption| |exact N|exact H|].
    + destruct Hl as (L1 & L2 & L3). split; [exact L1|]. split; [intros e [<-|He]; [apply lower_idem|apply L2; now right]|].
      intros e p [<-|He] Ep; [discriminate|]. destruct (L3 e p (or_intror He) Ep) as (e' & [<-|He'] & E1 & E2); [exists (lower nm, i, None, b1); split; [now left|split; [exact E1|reflexivity]]|exists e'; split; [now right|now split]].
    + split; [|exact I2]. exists b'. change (own_items (CItems its :: cs)) with (its ++ own_items cs). rewrite (read_items_app its _ _ _ H1). exact I1.
  - cbn [frames_in flat_map app] in HF, N. inversion HF as [|? ? F2 HF']; subst. cbn [part_name] in F2.
    assert (~ In (lower n) (map ekey ((lower nm, i, None, b) :: l))) as Hn. { apply NoDup_app_iff in N as (_ & _ & N). intros X. apply (N _ X). now left. }
    assert (grouped fl /\ grouped cs) as [Gf Gc] by (inversion Hg; now split).
    assert (forall n' l', ~ In (CFrame n' l') fl) as Hno by (intros n' l' X; eapply Ho; [now left|exact X]).
    cbn [build_contents] in H. match type of H with obind ?A _ = _ => destruct A as [c|e] eqn:E; [|discriminate H] end.
    destruct (frame_inv g maxn n fl c F2 Gf Hno E) as [F1 [fb F3]]. rewrite (frame_alone g maxn n fl fb F1 F2 Gf Hno F3) in E. injection E as <-. cbn [obind] in H.
    assert (D : forall x, In x (map ekey ((lower nm, i, None, b) :: l)) -> ~ In x (map ekey [(lower n, n, @None str, fb)])). { intros x Hx [<-|[]]. contradiction. }
    unfold add_frame in H. rewrite tcoll_merge in H; [|exact Hl|apply flat_one, lower_idem|exact D|cbn; now rewrite lower_idem].
    rewrite tcoll_merged_key in H by exact D. cbn [obind fst snd map under app ekey] in H.
    destruct (IH b (l ++ [frame_ent (lower nm) (n, fb)]) (v ++ [lower n]) sd y HF' Gc) as [I1 I2].
    + intros; eapply Ho; right; eassumption.
    + apply (flat_frame (lower nm) i b l (n, fb) Hl Hn).
    + cbn [map app ekey fst part_name] in N |- *. rewrite map_app. cbn [map app ekey frame_ent fst]. rewrite <- app_assoc. exact N.
    + exact H.
    + split; [exact I1|]. change (frames_in nm (CFrame n fl :: cs)) with ((n, Some nm, own_items fl) :: frames_in nm cs). constructor; [now exists fb|exact I2].
Qed.
Lemma dblock_inv g maxn sd d y : Forall (fun x => fix_name true (part_name x) = part_name x) (parts d) -> grouped (d_contents d) -> one_level d ->
  NoDup (map (fun x => lower (part_name x)) (parts d)) -> build_dblock g maxn sd d = Ret y ->
  Forall (fun x => exists mx un, reads mx un (match x with (_, _, its) => its end)) (parts d).
Proof.
  intros HF Hg Ho N H. inversion HF as [|? ? Hf HF']; subst. cbn [part_name] in Hf. unfold build_dblock in H.
  destruct (le_lt_dec (length (d_name d)) 75) as [Hl|Hl]; [|destruct (long_block (d_name d) sd true maxn Hl) as (c & e & E); rewrite E in H; discriminate].
  rewrite (one_block (d_name d) sd true maxn Hl Hf) in H. match type of H with obind ?A _ = _ => destruct A as [c|e] eqn:E; [|discriminate H] end.
  destruct (mixed_inv g maxn (d_name d) (d_name d) (d_contents d) (empty_block false (limit sd maxn) true) [] [lower (d_name d)] sd c HF' Hg Ho) as [I1 I2]; [apply flat_one, lower_idem|exact N|exact E|].
  constructor; [destruct I1 as [b' I1]; exists (limit sd maxn), true, b'; exact I1|]. eapply Forall_impl; [|exact I2]. intros x Hx. exists 75%Z, (unicode_grammar g). exact Hx.
Qed.
Lemma merge_blocks_fail g maxn d ds : In d ds -> (forall sd, exists e, build_dblock g maxn sd d = Raise e) -> forall p, exists p' e, merge_blocks g maxn ds p = (p', Raise e).
Proof.
  intros H Hf. induction ds as [|x ds IH]; intros p; [destruct H|]. cbn [merge_blocks]. destruct H as [->|H].
  - destruct (Hf (c_std p)) as [e ->]. eauto.
  - destruct (build_dblock g maxn (c_std p) x) as [bc|e]; [|eauto]. destruct (merge_fast None bc p) as [p' [t|e]]; [now apply IH|eauto].
Qed.
Lemma one_grammar o g s : ro_grammar o = Some g -> attempts (ro_grammar o) s = [g] \/ attempts (ro_grammar o) s = [].
Proof. intros ->. unfold attempts. destruct (str_eqb (firstn 10 s) magic); cbn [try_list filter]; [now left|]. destruct (negb (is_g20 g)); [now left|now right]. Qed.
Theorem refused g s ds o p d n q its : parse_file g s = Ret ds -> In d ds -> one_level d -> NoDup (map (fun x => lower (part_name x)) (parts d)) ->
  In (n, q, its) (parts d) -> Forall loop_named its ->
  ~ (NoDup (map lower (all_names its)) /\ Forall item_whole its) -> ro_grammar o = Some g -> ro_cbf o = false -> s <> [] -> ~ In 26%N s ->
  exists e, snd (read_star o s p) = Raise e.
Proof.
  intros HP Hd Ho Nd Hi Hn Hbad Hg Hcbf Hne Hz. destruct (parse_file_toks g s ds HP) as (ts & r & _ & _ & B). destruct (read_names g s ds HP) as [Nn Nh]. rewrite Forall_forall in Nn, Nh.
  assert (forall x, In x (parts d) -> In x (flat_map parts ds)) as Hin. { intros x Hx. apply in_flat_map. now exists d. }
  pose proof (parts_given g ds ts B _ (Hin _ Hi)) as Hv. cbn beta iota in Hv.
  assert (Forall is_dataname (all_names its)) as Hw.
  { apply Forall_forall. intros m Hm. destruct (Nn m (part_names ds _ m (Hin _ Hi) Hm)) as (w & -> & _). now exists w. }
  assert (Forall item_ok its /\ Forall loop_full its) as [F1 F2].
  { clear -Hn Hv Hw. induction its as [|it its IH]; [split; constructor|]. inversion Hn; subst. inversion Hv; subst. unfold all_names in Hw. cbn [flat_map] in Hw. apply Forall_app in Hw as [Hw1 Hw2].
    destruct (IH ltac:(assumption) ltac:(assumption) Hw2) as [I1 I2]. destruct it as [m v|ns vs]; cbn [loop_named item_given ReadSpec.item_names] in *.
    - inversion Hw1; subst. split; constructor; try assumption; try exact I. split; assumption.
    - split; constructor; try assumption; cbn; tauto. }
  assert (forall mx un, ~ reads mx un its) as Hr.
  { intros mx un [b' R]. destruct (read_items_empty its false mx un eq_refl F1 F2) as [_ H2]. assert (~ NoDup (map lower (all_names its)) \/ ~ Forall item_whole its) as Hb.
    { destruct (ListDec.NoDup_dec (list_eq_dec N.eq_dec) (map lower (all_names its))); [right; tauto|now left]. }
    rewrite R in H2. destruct (H2 Hb) as [H|H]; discriminate H. }
  assert (forall sd, exists e, build_dblock g (ro_maxn o) sd d = Raise e) as Hb.
  { intros sd. destruct (build_dblock g (ro_maxn o) sd d) as [y|e] eqn:E; [|now exists e]. exfalso.
    pose proof (file_grouped g s ds HP) as Gr. rewrite Forall_forall in Gr. pose proof (dblock_inv g (ro_maxn o) sd d y) as K.
    assert (Forall (fun x => fix_name true (part_name x) = part_name x) (parts d)) as Hf. { apply Forall_forall. intros x Hx. apply (fix_heading g). apply Nh. apply part_heading. now apply Hin. }
    specialize (K Hf (Gr d Hd) Ho Nd E). rewrite Forall_forall in K. destruct (K _ Hi) as (mx & un & R). exact (Hr mx un R). }
  unfold read_star. destruct s as [|t0 tr] eqn:Es; [congruence|]. rewrite <- Es in *.
  assert (input_text o s = s) as -> by (unfold input_text; rewrite Hcbf; now apply cut_z_id). destruct (too_long (ro_maxlength o) s); [cbn; eauto|].
  destruct (one_grammar o g s Hg) as [-> | ->]; [|cbn; eauto]. cbn [try_grammars]. unfold parse_input. unfold parse_file in HP. rewrite (upto_file g _ _ _ _ HP). cbn [fst snd].
  destruct (merge_blocks_fail g (ro_maxn o) d ds Hd Hb (c_set_characterset (unicode_grammar g) p)) as (p' & e & ->). destruct e; cbn; eauto.
Qed.
