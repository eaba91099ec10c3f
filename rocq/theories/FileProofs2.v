(** Building the collection from the parsed contents, when all names differ. *)
From Coq Require Import String Ascii List NArith ZArith Bool Lia Permutation.
From Verif Require Import PyBase PyFacts StarBlockModel ScanModel ReadModel ParseModel CollectionModel FileModel
  CollectionSpec ParseSpec FileSpec CollectionProofs CollectionProofs2 CollectionProofs3 CollectionProofs4 ParseProofs4 FileProofs.
Import ListNotations.
Open Scope nat_scope.

(** Collections given by one list of entries: key, name, parent, block. *)
Definition ent : Type := str * str * option str * block.
Definition ekey (e : ent) : str := match e with (k, _, _, _) => k end.
Definition epc (e : ent) : pc := match e with (_, i, p, _) => PC i p end.
Definition eblk (e : ent) : block := match e with (_, _, _, b) => b end.
Definition tcoll (l : list ent) (v : list str) (sd : standard) (sc : scope) (un : bool) (g : grammar) : coll :=
  Coll (map (fun e => (ekey e, eblk e)) l) (map ekey l) (map (fun e => (ekey e, epc e)) l) v (map ekey l) sd sc un g.

(** Entries without doubles; frames directly inside a data block. *)
Definition flat (l : list ent) : Prop :=
  NoDup (map ekey l) /\ (forall e, In e l -> lower (ekey e) = ekey e) /\
  (forall e p, In e l -> pc_parent (epc e) = Some p -> exists e', In e' l /\ ekey e' = p /\ pc_parent (epc e') = None).
Lemma tcoll_keys l v sd sc un g : ckeys (tcoll l v sd sc un g) = map ekey l.
Proof. unfold ckeys. cbn [tcoll c_dict]. rewrite map_map. reflexivity. Qed.
Lemma ent_unique l e e' : NoDup (map ekey l) -> In e l -> In e' l -> ekey e = ekey e' -> e = e'.
Proof.
  induction l as [|x l IH]; intros N H H' E; [destruct H|]. cbn [map] in N. inversion N; subst.
  destruct H as [->|H], H' as [->|H']; [reflexivity| | |now apply IH].
  - exfalso. match goal with X : ~ In _ _ |- _ => apply X end. rewrite E. now apply in_map.
  - exfalso. match goal with X : ~ In _ _ |- _ => apply X end. rewrite <- E. now apply in_map.
Qed.
Lemma tcoll_inside l v sd sc un g p x : inside (tcoll l v sd sc un g) p x <-> exists e, In e l /\ ekey e = x /\ pc_parent (epc e) = Some p.
Proof.
  unfold inside. cbn [tcoll c_child]. split.
  - intros (i & H). apply in_map_iff in H as (e & E & H). exists e. injection E as E1 E2. split; [exact H|]. split; [exact E1|]. now rewrite E2.
  - intros (e & H & <- & E). exists (pc_id (epc e)). apply in_map_iff. exists e. split; [|exact H]. destruct (epc e) as [i q]. cbn in *. now subst.
Qed.
Lemma tcoll_root l v sd sc un g x : root (tcoll l v sd sc un g) x <-> exists e, In e l /\ ekey e = x /\ pc_parent (epc e) = None.
Proof.
  unfold root. cbn [tcoll c_child]. split.
  - intros (i & H). apply in_map_iff in H as (e & E & H). exists e. injection E as E1 E2. split; [exact H|]. split; [exact E1|]. now rewrite E2.
  - intros (e & H & <- & E). exists (pc_id (epc e)). apply in_map_iff. exists e. split; [|exact H]. destruct (epc e) as [i q]. cbn in *. now subst.
Qed.
Lemma tcoll_CWF l v sd sc un g : flat l -> CWF (tcoll l v sd sc un g).
Proof.
  intros (N & L & P).
  assert (forall p x, inside (tcoll l v sd sc un g) p x -> exists e, In e l /\ ekey e = p /\ pc_parent (epc e) = None) as HI.
  { intros p x H. apply tcoll_inside in H as (e & H & _ & E). exact (P e p H E). }
  assert (forall p x, below (tcoll l v sd sc un g) p x -> inside (tcoll l v sd sc un g) p x) as HB.
  { intros p x H. induction H as [x H|x y H IH H']; [exact H|]. exfalso.
    apply HI in H' as (e & H1 & H2 & H3). apply tcoll_inside in IH as (e' & H4 & H5 & H6).
    assert (e = e') as <- by (apply (ent_unique l); congruence). congruence. }
  constructor; rewrite ?tcoll_keys; cbn [tcoll c_lower c_child c_order].
  - exact N.
  - intros k Hk. apply in_map_iff in Hk as (e & <- & H). now apply L.
  - apply Permutation_refl.
  - rewrite map_map. apply Permutation_refl.
  - apply Permutation_refl.
  - intros p x H. apply HI in H as (e & H & <- & _). now apply in_map.
  - intros x H. apply HB in H. pose proof (HI _ _ H) as (e & H1 & H2 & H3). apply tcoll_inside in H as (e' & H4 & H5 & H6).
    assert (e = e') as <- by (apply (ent_unique l); congruence). congruence.
Qed.

Definition under (p : option str) (e : ent) : ent := match e with (k, i, q, b) => (k, i, match q, p with None, Some r => Some r | _, _ => q end, b) end.
Lemma under_key p e : ekey (under p e) = ekey e.
Proof. destruct e as [[[k i] q] b]. reflexivity. Qed.
Lemma tcoll_joined p l1 l2 v1 v2 sd1 sd2 sc1 sc2 un1 un2 g1 g2 :
  joined p (tcoll l1 v1 sd1 sc1 un1 g1) (tcoll l2 v2 sd2 sc2 un2 g2) = tcoll (l1 ++ map (under p) l2) (v1 ++ map ekey l2) sd1 sc1 un1 g1.
Proof.
  unfold joined, tcoll. cbn [c_dict c_lower c_child c_vis c_order c_std c_scope c_uni c_gram]. rewrite !map_app, !map_map.
  f_equal; f_equal; apply map_ext; intros [[[k i] q] b]; cbn; try reflexivity. now destruct p, q.
Qed.
Lemma tcoll_merge p l1 l2 v1 v2 sd1 sd2 sc1 sc2 un1 un2 g1 g2 : flat l1 -> flat l2 -> (forall x, In x (map ekey l1) -> ~ In x (map ekey l2)) ->
  option_map lower p = p ->
  merge_fast p (tcoll l2 v2 sd2 sc2 un2 g2) (tcoll l1 v1 sd1 sc1 un1 g1) = (tcoll (l1 ++ map (under p) l2) (v1 ++ map ekey l2) sd1 sc1 un1 g1, Ret tt).
Proof.
  intros F1 F2 D Hp. rewrite merge_disjoint; [|now apply tcoll_CWF|now apply tcoll_CWF|now rewrite !tcoll_keys].
  rewrite Hp. now rewrite tcoll_joined.
Qed.
Lemma tcoll_merged_key k l1 l2 v1 v2 sd1 sd2 sc1 sc2 un1 un2 g1 g2 : (forall x, In x (map ekey l1) -> ~ In x (map ekey l2)) ->
  merged_key k (tcoll l2 v2 sd2 sc2 un2 g2) (tcoll l1 v1 sd1 sc1 un1 g1) = k.
Proof.
  intros D. unfold merged_key. cbn [tcoll c_std c_lower]. fold (tcoll l1 v1 sd1 sc1 un1 g1) (tcoll l2 v2 sd2 sc2 un2 g2).
  replace (filter (fun x => smem x (map ekey l2)) (map ekey l1)) with (@nil str); [now destruct sd1|].
  symmetry. apply filter_none. intros x Hx. apply smem_false. now apply D.
Qed.

(** ** A new block and its items *)
Definition limit (sd : standard) (maxn : Z) : Z := match sd with StdCif => 75 | _ => maxn end.
Lemma one_block nm sd un maxn : length nm <= 75 -> fix_name true nm = nm ->
  new_block nm (empty_block false maxn false) true None (new_coll sd Instance un)
  = (tcoll [(lower nm, nm, None, empty_block false (limit sd maxn) un)] [lower nm] sd Instance un G20, Ret (lower nm)).
Proof.
  intros Hl Hf. unfold new_block. cbn [new_coll c_std c_lower c_dict c_child].
  assert (Nat.ltb 75 (length nm) = false) as L by (apply Nat.ltb_ge; exact Hl).
  destruct sd; unfold setmaxnamelength; cbn [b_keys empty_block b_data existsb andb]; rewrite ?andb_false_r; rewrite L, Hf;
    cbn [smem mem]; unfold add_block; cbn; rewrite ?str_eqb_refl; reflexivity.
Qed.
Lemma first_items t k i p b b' l v sd sc un g its : lower t = k -> lower k = k -> read_items its b = (b', Ret tt) ->
  add_items t its (tcoll ((k, i, p, b) :: l) v sd sc un g) = Ret (tcoll ((k, i, p, b') :: l) v sd sc un g).
Proof.
  intros Ht Hk Hr. unfold add_items, c_get. cbn [tcoll c_lower c_dict map ekey eblk]. rewrite Ht.
  assert (smem k (k :: map ekey l) = true) as -> by (apply smem_In; now left).
  cbn [dget]. rewrite str_eqb_refl, Hr. unfold set_dict, tcoll. cbn [c_dict c_lower c_child c_vis c_order c_std c_scope c_uni c_gram map ekey eblk epc dset].
  now rewrite str_eqb_refl.
Qed.
Lemma read_of_items es : plain_items (read_of es) = map canon_item es.
Proof. destruct es; [reflexivity|]. cbn. now rewrite app_nil_r. Qed.

(** ** Save frames *)
Lemma build_one_frame g maxn (nm : str) es b' : length nm <= 75 -> fix_name true nm = nm ->
  read_items (plain_items (read_of es)) (empty_block false 75 (unicode_grammar g)) = (b', Ret tt) ->
  build_frame g maxn (CFrame nm (read_of es)) = Ret (tcoll [(lower nm, nm, None, b')] [lower nm] StdCif Instance (unicode_grammar g) G20).
Proof.
  intros Hl Hf Hr. cbn [build_frame]. rewrite (one_block nm StdCif (unicode_grammar g) maxn Hl Hf). cbn [limit].
  destruct es as [|e es]; cbn [read_of] in *.
  - cbn in Hr. injection Hr as <-. reflexivity.
  - cbn [plain_items flat_map] in Hr. rewrite app_nil_r in Hr.
    erewrite (first_items nm (lower nm)); [reflexivity|reflexivity|apply lower_idem|exact Hr].
Qed.

(** The frame [x] as it is parsed and the block [fb] that it becomes. *)
Definition frame_reads (g : grammar) (x : str * list item * str) (fb : str * block) : Prop :=
  match x with (nm, es, _) => fst fb = nm /\ length nm <= 75 /\ fix_name true nm = nm /\
    read_items (plain_items (read_of es)) (empty_block false 75 (unicode_grammar g)) = (snd fb, Ret tt) end.
Definition frame_ent (k : str) (fb : str * block) : ent := (lower (fst fb), fst fb, Some k, snd fb).
Lemma flat_one k i b : lower k = k -> flat [(k, i, None, b)].
Proof.
  intros H. split; [repeat constructor; intros []|]. split.
  - intros e [<-|[]]. exact H.
  - intros e p [<-|[]]. discriminate.
Qed.
Lemma flat_frame k i b l fb : flat ((k, i, None, b) :: l) -> ~ In (lower (fst fb)) (map ekey ((k, i, None, b) :: l)) ->
  flat (((k, i, None, b) :: l) ++ [frame_ent k fb]).
Proof.
  intros (N & L & P) Hn. split; [|split].
  - rewrite map_app. cbn [map frame_ent ekey]. apply NoDup_app_iff. split; [exact N|]. split; [repeat constructor; intros []|].
    intros x Hx [<-|[]]. contradiction.
  - intros e He. apply in_app_iff in He as [He|[<-|[]]]; [now apply L|apply lower_idem].
  - intros e p He Ep. apply in_app_iff in He as [He|[<-|[]]].
    + destruct (P e p He Ep) as (e' & H1 & H2). exists e'. split; [apply in_or_app; now left|exact H2].
    + cbn in Ep. injection Ep as <-. exists (k, i, None, b). split; [now left|]. split; reflexivity.
Qed.
Lemma build_frames g maxn h k i b fs fbs : Forall2 (frame_reads g) fs fbs -> forall l v sd r,
  flat ((k, i, None, b) :: l) -> NoDup (map ekey ((k, i, None, b) :: l) ++ map (fun fb => lower (fst fb)) fbs) ->
  build_contents g maxn h (map frame_of fs ++ r) (tcoll ((k, i, None, b) :: l) v sd Instance true G20) k
  = build_contents g maxn h r (tcoll ((k, i, None, b) :: l ++ map (frame_ent k) fbs) (v ++ map (fun fb => lower (fst fb)) fbs) sd Instance true G20) k.
Proof.
  induction 1 as [|[[nm es] o] [nm' fb] fs fbs Hf HF IH]; intros l v sd r Hl N; [cbn [map app]; now rewrite !app_nil_r|].
  destruct Hf as (E & H1 & H2 & H3). cbn [fst snd] in E, H3. subst nm'.
  assert (~ In (lower nm) (map ekey ((k, i, None, b) :: l))) as Hn.
  { apply NoDup_app_iff in N as (_ & _ & N). intros X. apply (N _ X). now left. }
  cbn [map app frame_of fst snd build_contents]. rewrite (build_one_frame g maxn nm es fb H1 H2 H3). cbn [obind].
  assert (lower k = k) as Lk by (destruct Hl as (_ & L & _); apply (L (k, i, None, b)); now left).
  assert (D : forall x, In x (map ekey ((k, i, None, b) :: l)) -> ~ In x (map ekey [(lower nm, nm, @None str, fb)])).
  { intros x Hx [<-|[]]. contradiction. }
  unfold add_frame. rewrite tcoll_merge; [|exact Hl|apply flat_one, lower_idem|exact D|cbn; now rewrite Lk].
  rewrite tcoll_merged_key by exact D. cbn [obind fst snd map under app ekey].
  specialize (IH (l ++ [frame_ent k (nm, fb)]) (v ++ [lower nm]) sd r).
  etransitivity; [apply IH|].
  3:{ rewrite <- !app_assoc. reflexivity. }
  - apply (flat_frame k i b l (nm, fb) Hl Hn).
  - cbn [map app ekey fst] in N |- *. rewrite map_app. cbn [map app ekey frame_ent fst]. rewrite <- app_assoc. exact N.
Qed.

(** ** Data blocks *)
Definition dblock_reads (g : grammar) (maxn : Z) (sd : standard) (x : fblock) (y : str * list (str * block) * block) : Prop :=
  match x, y with (nm, fs, es, _), (nm', fbs, b') =>
    nm' = nm /\ length nm <= 75 /\ fix_name true nm = nm /\ Forall2 (frame_reads g) fs fbs /\
    read_block (plain_items (read_of es)) (empty_block false (limit sd maxn) true) = (b', Ret tt)
  end.
Definition dblock_ents (y : str * list (str * block) * block) : list ent :=
  match y with (nm, fbs, b') => (lower nm, nm, None, b') :: map (frame_ent (lower nm)) fbs end.
Lemma read_block_split its b b' : read_block its b = (b', Ret tt) -> read_items its b = (b', Ret tt) /\ setmaxnamelength (b_max b') b' = (b', Ret tt).
Proof.
  unfold read_block. destruct (read_items its b) as [c [[]|e]] eqn:E; [|intros X; discriminate].
  intros H. assert (b' = c) as ->.
  { unfold setmaxnamelength in H. destruct (_ && _)%bool; [discriminate|]. injection H as <-. now destruct c. }
  now split.
Qed.
Lemma ents_flat nm fbs b : NoDup (lower nm :: map (fun fb => lower (fst fb)) fbs) -> flat ((lower nm, nm, @None str, b) :: map (frame_ent (lower nm)) fbs).
Proof.
  intros N. split; [|split].
  - cbn [map ekey]. rewrite map_map. exact N.
  - intros e [<-|He]; [apply lower_idem|]. apply in_map_iff in He as (fb & <- & _). apply lower_idem.
  - intros e p [<-|He] Ep; [discriminate|]. apply in_map_iff in He as (fb & <- & _). cbn in Ep. injection Ep as <-.
    exists (lower nm, nm, None, b). split; [now left|split; reflexivity].
Qed.
Lemma build_one_dblock g maxn sd x y : dblock_reads g maxn sd x y -> NoDup (map ekey (dblock_ents y)) ->
  build_dblock g maxn sd (fblock_of x) = Ret (tcoll (dblock_ents y) (map ekey (dblock_ents y)) sd Instance true G20).
Proof.
  destruct x as [[[nm fs] es] o], y as [[nm' fbs] b']. intros (-> & H1 & H2 & H3 & H4) N.
  apply read_block_split in H4 as [H4 H5].
  assert (NoDup (lower nm :: map (fun fb => lower (fst fb)) fbs)) as N'.
  { unfold dblock_ents in N. cbn [map ekey] in N. rewrite map_map in N. exact N. }
  unfold build_dblock. cbn [fblock_of d_name d_contents]. rewrite (one_block nm sd true maxn H1 H2).
  rewrite (build_frames g maxn nm (lower nm) nm _ fs fbs H3 [] [lower nm] sd (read_of es)).
  2:{ apply flat_one, lower_idem. }
  2:{ exact N'. }
  cbn [app].
  assert (forall b, build_contents g maxn nm (read_of es)
     (tcoll ((lower nm, nm, None, empty_block false (limit sd maxn) true) :: map (frame_ent (lower nm)) fbs) b sd Instance true G20) (lower nm)
    = Ret (tcoll ((lower nm, nm, None, b') :: map (frame_ent (lower nm)) fbs) b sd Instance true G20, lower nm)) as ->.
  { intros v. destruct es as [|e es]; cbn [read_of build_contents] in *.
    - cbn in H4. injection H4 as <-. reflexivity.
    - cbn [plain_items flat_map] in H4. rewrite app_nil_r in H4.
      erewrite (first_items _ (lower nm)); [reflexivity| |apply lower_idem|exact H4].
      unfold target. destruct (unicode_grammar g); [apply lower_idem|reflexivity]. }
  cbn [obind fst snd].
  assert (lower (target g nm (lower nm)) = lower nm) as Lt by (unfold target; destruct (unicode_grammar g); [apply lower_idem|reflexivity]).
  unfold c_get. rewrite Lt. cbn [tcoll c_lower c_dict map ekey eblk].
  assert (forall l, smem (lower nm) (lower nm :: l) = true) as Hm by (intros l; apply smem_In; now left). rewrite Hm.
  cbn [dget]. rewrite str_eqb_refl, H5. f_equal. unfold set_dict, tcoll, dblock_ents.
  cbn [c_dict c_lower c_child c_vis c_order c_std c_scope c_uni c_gram map ekey eblk epc dset]. rewrite str_eqb_refl, !map_map. reflexivity.
Qed.

(** ** Files *)
Lemma flat_app l1 l2 : flat l1 -> flat l2 -> (forall x, In x (map ekey l1) -> ~ In x (map ekey l2)) -> flat (l1 ++ l2).
Proof.
  intros (N1 & L1 & P1) (N2 & L2 & P2) D. split; [|split].
  - rewrite map_app. apply NoDup_app_iff. auto.
  - intros e He. apply in_app_iff in He as [He|He]; auto.
  - intros e p He Ep. apply in_app_iff in He as [He|He].
    + destruct (P1 e p He Ep) as (e' & H & H'). exists e'. split; [apply in_or_app; now left|exact H'].
    + destruct (P2 e p He Ep) as (e' & H & H'). exists e'. split; [apply in_or_app; now right|exact H'].
Qed.
Lemma dblock_flat y : NoDup (map ekey (dblock_ents y)) -> flat (dblock_ents y).
Proof.
  destruct y as [[nm fbs] b]. intros N. apply ents_flat. unfold dblock_ents in N. cbn [map ekey] in N. rewrite map_map in N. exact N.
Qed.
Lemma build_file g maxn sd xs ys : Forall2 (dblock_reads g maxn sd) xs ys -> forall l v sc un gr,
  flat l -> NoDup (map ekey (l ++ concat (map dblock_ents ys))) ->
  merge_blocks g maxn (map fblock_of xs) (tcoll l v sd sc un gr)
  = (tcoll (l ++ concat (map dblock_ents ys)) (v ++ map ekey (concat (map dblock_ents ys))) sd sc un gr, Ret tt)
  /\ flat (l ++ concat (map dblock_ents ys)).
Proof.
  induction 1 as [|x y xs ys H HF IH]; intros l v sc un gr Hl N; [cbn [map concat]; rewrite !app_nil_r; now split|].
  cbn [map concat merge_blocks]. cbn [map concat] in N. rewrite app_assoc, map_app in N. pose proof N as N0.
  apply NoDup_app_iff in N as (N1 & _ & _). rewrite map_app in N1. pose proof N1 as N1'. apply NoDup_app_iff in N1' as (_ & N2 & D).
  change (c_std (tcoll l v sd sc un gr)) with sd. rewrite (build_one_dblock g maxn sd x y H N2).
  rewrite tcoll_merge; [|exact Hl|now apply dblock_flat|exact D|reflexivity].
  assert (map (under None) (dblock_ents y) = dblock_ents y) as ->.
  { rewrite <- (map_id (dblock_ents y)) at 2. apply map_ext. intros [[[k i] [q|]] b]; reflexivity. }
  destruct (IH (l ++ dblock_ents y) (v ++ map ekey (dblock_ents y)) sc un gr) as [E F].
  - apply flat_app; [exact Hl|now apply dblock_flat|exact D].
  - rewrite map_app. exact N0.
  - rewrite E. rewrite <- !app_assoc, !map_app in *. split; [reflexivity|exact F].
Qed.
