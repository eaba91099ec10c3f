(** Properties of whole files: C32 and C52. *)
From Coq Require Import String Ascii List NArith ZArith Bool Lia Permutation.
From Verif Require Import PyBase PyFacts RegexModel FoldModel StarBlockModel LoopModel ScanModel FormatModel ReadModel WriteModel ParseModel CollectionModel FileModel
  FoldSpec StarBlockSpec CollectionSpec ReadSpec ScanSpec FormatSpec WriteSpec ParseSpec FileSpec
  CollectionProofs CollectionProofs2 CollectionProofs3 ParseProofs3 ParseProofs4 ParseProofs5 ParseProofs6 FileProofs FileProofs2 FileProofs3 PropertiesWrite.
Import ListNotations.
Open Scope nat_scope.

(** * C32: truncation, line limit, magic string *)
Lemma cut_z_truncated s t : truncated s t -> cut_z s = t.
Proof.
  intros (N & [->|(r & ->)]); [now apply cut_z_id|]. induction t as [|x t IH]; [reflexivity|].
  cbn [app cut_z]. destruct (N.eqb_spec x 26) as [->|]; [exfalso; apply N; now left|]. rewrite IH; [reflexivity|].
  intros X. apply N. now right.
Qed.
Lemma cut_z_spec s : truncated s (cut_z s).
Proof.
  induction s as [|x s (N & H)]; [split; [intros []|now left]|]. cbn [cut_z]. destruct (N.eqb_spec x 26) as [->|E].
  - split; [intros []|]. right. now exists s.
  - split; [intros [X|X]; [congruence|contradiction]|]. destruct H as [H|(r & H)]; [left; now f_equal|]. right. exists r. cbn. now f_equal.
Qed.
(** Text after Ctrl-Z does not matter. *)
Theorem C32_ctrl_z : forall o s s' t p, ro_cbf o = false -> truncated s t -> truncated s' t -> s <> [] -> s' <> [] ->
  read_star o s p = read_star o s' p.
Proof.
  intros o s s' t p Hc H H' N N'. unfold read_star, input_text. rewrite Hc, (cut_z_truncated s t H), (cut_z_truncated s' t H').
  destruct s; [congruence|]. destruct s'; [congruence|]. reflexivity.
Qed.
(** A line that is too long is refused, and this is all that the limit does. *)
Theorem C32_line_limit : forall o s t p, ro_cbf o = false -> truncated s t -> s <> [] ->
  (short_lines (ro_maxlength o) t -> read_star o s p = read_star (ROpts (ro_grammar o) 0 false (ro_maxn o)) s p) /\
  (~ short_lines (ro_maxlength o) t -> read_star o s p = (p, Raise StarErr)).
Proof.
  intros o s t p Hc H N. unfold read_star, input_text. cbn [ro_grammar ro_maxlength ro_cbf ro_maxn]. rewrite Hc, (cut_z_truncated s t H).
  destruct s as [|c s]; [congruence|]. split; intros X.
  - apply too_long_None in X. rewrite X. reflexivity.
  - destruct (too_long (ro_maxlength o) t) eqn:E; [reflexivity|]. now apply too_long_None in E.
Qed.
(** The line number that is reported. *)
Theorem C32_line_number : forall m s n, too_long m s = Some n <-> first_long m s n.
Proof.
  intros m s n. unfold too_long, first_long. destruct (Z.ltb_spec 0 m) as [Hm|Hm]; [|split; [discriminate|intros [X _]; lia]].
  assert (forall ls, (match filter (fun l : list N => (m <? Z.of_nat (length l))%Z) ls with
      | [] => None | l :: _ => option_map Datatypes.S (index_of str_eqb l ls) end = Some n) <->
      exists before l after, ls = before ++ l :: after /\ n = Datatypes.S (length before) /\
        (m < Z.of_nat (length l))%Z /\ Forall (fun x => (Z.of_nat (length x) <= m)%Z) before) as G.
  { intros ls. revert n. induction ls as [|x ls IH]; intros n.
    - split; [discriminate|]. intros (b & l & a & E & _). destruct b; discriminate.
    - cbn [filter]. destruct (Z.ltb_spec m (Z.of_nat (length x))) as [Hx|Hx].
      + cbn [index_of]. rewrite str_eqb_refl. cbn [option_map]. split.
        * intros E. injection E as <-. exists [], x, ls. repeat split; [exact Hx|constructor].
        * intros ([|y b] & l & a & E & -> & Hl & Hb); [reflexivity|]. injection E as -> _. inversion Hb; subst. lia.
      + split.
        * intros E. destruct (filter _ ls) as [|l r] eqn:F; [discriminate|].
          assert (l <> x) as Nx. { intros ->. assert (In x (x :: r)) as X by now left. rewrite <- F in X. apply (filter_In (fun l : list N => (m <? Z.of_nat (length l))%Z)) in X as [_ X]. apply Z.ltb_lt in X. lia. }
          cbn [index_of] in E. destruct (str_eqb_spec l x) as [|_]; [contradiction|].
          destruct (index_of str_eqb l ls) as [i|] eqn:I; [|discriminate]. cbn in E. injection E as <-.
          destruct (proj1 (IH (Datatypes.S i)) eq_refl) as (b & l' & a & -> & Ei & Hl & Hb). exists (x :: b), l', a.
          split; [reflexivity|]. split; [cbn [length]; now rewrite Ei|]. split; [exact Hl|]. now constructor.
        * intros ([|y b] & l & a & E & -> & Hl & Hb); [injection E as -> _; lia|]. injection E as <- ->. inversion Hb; subst.
          destruct (filter _ (b ++ l :: a)) as [|l1 r] eqn:F.
          { exfalso. apply (in_nil (a := l)). rewrite <- F. apply (filter_In (fun l : list N => (m <? Z.of_nat (length l))%Z)). split; [apply in_elt|now apply Z.ltb_lt]. }
          assert (l1 <> x) as Nx. { intros ->. assert (In x (x :: r)) as X by now left. rewrite <- F in X. apply (filter_In (fun l : list N => (m <? Z.of_nat (length l))%Z)) in X as [_ X]. apply Z.ltb_lt in X. lia. }
          assert (option_map Datatypes.S (index_of str_eqb l1 (b ++ l :: a)) = Some (Datatypes.S (length b))) as Ei.
          { apply (proj2 (IH (Datatypes.S (length b)))). exists b, l, a. auto. }
          cbn [index_of]. destruct (str_eqb_spec l1 x) as [|_]; [contradiction|].
          destruct (index_of str_eqb l1 (b ++ l :: a)); [|discriminate]. cbn in Ei |- *. injection Ei as ->. reflexivity. }
  rewrite (G (split_nl s)). split.
  - intros (b & l & a & E & H). split; [exact Hm|]. exists b, l, a. split; [|exact H]. pose proof (split_nl_lines s) as X. rewrite E in X. exact X.
  - intros [_ (b & l & a & E & H)]. exists b, l, a. split; [|exact H]. apply (lines_unique s); [apply split_nl_lines|exact E].
Qed.
(** A file is read as CIF2 only if it starts with the magic string. *)
Lemma try_chosen gs maxn s : forall p p', try_grammars gs maxn s p = (p', Ret tt) -> In (c_gram p') gs.
Proof.
  induction gs as [|g gs IH]; intros p p' H; [discriminate|]. cbn [try_grammars] in H.
  destruct (parse_input g maxn s (c_set_characterset (unicode_grammar g) p)) as [p1 [[]|e]].
  - injection H as <-. now left.
  - right. destruct e; try discriminate; eapply IH; exact H.
Qed.
Theorem C32_magic : forall o s p p', read_star o s p = (p', Ret true) -> c_gram p' = G20 -> exists r, input_text o s = magic ++ r.
Proof.
  intros o s p p' H Hg. unfold read_star in H. destruct s as [|c s]; [discriminate|].
  destruct (too_long (ro_maxlength o) (input_text o (c :: s))); [discriminate|].
  destruct (try_grammars (attempts (ro_grammar o) (input_text o (c :: s))) (ro_maxn o) (input_text o (c :: s)) p) as [p1 [[]|e]] eqn:E; [|discriminate].
  injection H as <-. apply try_chosen in E. change (c_gram p1 = G20) in Hg. rewrite Hg in E. unfold attempts in E.
  destruct (str_eqb_spec (firstn 10 (input_text o (c :: s))) magic) as [Em|Em].
  - exists (skipn 10 (input_text o (c :: s))). rewrite <- Em. symmetry. apply firstn_skipn.
  - apply filter_In in E as [_ E]. discriminate.
Qed.
(** Without the magic string, asking for CIF2 is refused; autodetection is the
    same as trying 1.1 and then 1.0. *)
Theorem C32_no_magic : forall o s p, s <> [] -> firstn 10 (input_text o s) <> magic -> short_lines (ro_maxlength o) (input_text o s) ->
  (ro_grammar o = Some G20 -> read_star o s p = (p, Raise StarErr)) /\
  (ro_grammar o = None -> read_star o s p =
     match try_grammars [G11; G10] (ro_maxn o) (input_text o s) p with
     | (p', Raise e) => (p', Raise e)
     | (p', Ret _) => (set_scope (c_scope p) (set_scope Dictionary p'), Ret true)
     end).
Proof.
  intros o s p N M L. apply too_long_None in L. unfold read_star. destruct s as [|c s]; [congruence|]. rewrite L. unfold attempts.
  destruct (str_eqb_spec (firstn 10 (input_text o (c :: s))) magic) as [Em|Em]; [contradiction|]. split; intros ->; reflexivity.
Qed.
Definition nl1 : str := [10%N].
Example C32_example :
  let s := u "data_a" ++ nl1 ++ u "_x 1" ++ nl1 ++ [26%N] ++ u "data_" in
  truncated s (u "data_a" ++ nl1 ++ u "_x 1" ++ nl1) /\
  (exists p', read_star (ROpts None 10 false 75) s (new_coll StdCif Instance false) = (p', Ret true) /\ c_gram p' = G11 /\ c_order p' = [u "a"]) /\
  first_long 5 s 1 /\ read_star (ROpts None 5 false 75) s (new_coll StdCif Instance false) = (new_coll StdCif Instance false, Raise StarErr).
Proof.
  cbv zeta. split; [|split; [|split]].
  - split; [|right; exists (u "data_"); reflexivity]. intros X. cbn in X. repeat (destruct X as [X|X]; [discriminate|]). exact X.
  - eexists. split; [vm_compute; reflexivity|]. split; vm_compute; reflexivity.
  - apply C32_line_number. vm_compute. reflexivity.
  - vm_compute. reflexivity.
Qed.
(** Autodetection can refuse what grammar 1.1 reads: blocks that were read in the
    first attempt stay in the collection, and are read again in the second. *)
Theorem C32_auto_refuted : exists s p p',
  read_star (ROpts (Some G11) (-1) false 75) s p = (p', Ret true) /\
  exists p'', read_star (ROpts None (-1) false 75) s p = (p'', Raise StarErr).
Proof.
  exists (u "#\#CIF_2.0" ++ nl1 ++ u "data_a" ++ nl1 ++ u "_x 1" ++ nl1 ++ u "data_b" ++ nl1 ++ u "_y a[b" ++ nl1), (new_coll StdCif Instance false).
  eexists. split; [vm_compute; reflexivity|]. eexists. vm_compute. reflexivity.
Qed.
(** An empty file gives no collection at all. *)
Theorem C32_empty_refuted : exists o s p, snd (read_star o s p) = Ret false.
Proof. exists (ROpts None (-1) false 75), [], (new_coll StdCif Instance false). reflexivity. Qed.

(** * C52: writing a file and reading it *)
Theorem C52_round_trip : forall maxout maxn c comment, file_ready maxout maxn c -> comment_text comment ->
  exists text, write_out maxout [] comment c = Ret text /\
  forall o sc un, text <> [] -> ~ In 26%N text -> short_lines (ro_maxlength o) text -> ro_cbf o = false -> ro_maxn o = maxn ->
    (ro_grammar o = Some (c_gram c) \/
     ro_grammar o = None /\ (c_gram c = G20 \/ c_gram c = G11 /\ firstn 10 text <> u "#\#CIF_2.0")) ->
    exists c', read_star o text (new_coll (c_std c) sc un) = (c', Ret true) /\
      CWF c' /\ visible_ok c' /\ c_gram c' = c_gram c /\ c_std c' = c_std c /\ c_scope c' = sc /\ same_file c c'.
Proof. exact round_trip. Qed.

(** A collection with a data block, a save frame and a frame inside it. *)
Definition ex_ops : list cop :=
  [KNew (u "Block_1") ex_text_block true None; KNew (u "Inner") ex_text_block true (Some (u "Block_1"));
   KNew (u "deep") ex_text_block true (Some (u "Inner")); KNew (u "Other") ex_text_block true None; KGrammar G11].
Definition ex_coll : coll := run_cops ex_ops (new_coll StdCif Instance false).
Definition ex_stored : block := set_characterset false (fst (setmaxnamelength 75 ex_text_block)).
Lemma ex_good : good_block G11 2048 75 ex_stored.
Proof.
  destruct C26_example as (_ & H & _).
  assert (text_block G11 2048 75 ex_text_block) as T.
  { destruct H as (W & Hn & Hr). split; [exact W|]. split; [|exact Hr]. intros n t H. destruct (Hn n t H) as [H1 _]. split; [exact H1|].
    intros Hp. apply (dget_In _ str_eqb_spec) in H.
    assert (forallb (fun nt => Nat.leb (length (snd nt)) 75) (b_true ex_text_block) = true) as F by (vm_compute; reflexivity).
    rewrite forallb_forall in F. apply F in H. apply Nat.leb_le in H. cbn [snd] in H. lia. }
  apply text_block_good in T. unfold ex_stored.
  assert (exists b, ex_text_block = b) as [b E] by eauto. rewrite E in *. clear -T.
  unfold setmaxnamelength. destruct b as [bd bl bo bt bv bm bu]. destruct (_ && _)%bool; cbn [fst]; destruct T as (W & T);
    (split; [eapply StarBlockProofs2.wf_settings; exact W|exact T]).
Qed.
Lemma ex_coll_ok : CWF ex_coll /\ visible_ok ex_coll.
Proof.
  assert (R : reachable_ops ex_ops (new_coll StdCif Instance false)).
  { cbn [reachable_ops ex_ops]. split; [|split; [|split; [|split; [|split; exact I]]]]; (split; [|vm_compute; intros X; discriminate X]);
      intros q E; try discriminate E; injection E as <-; apply smem_In; vm_compute; reflexivity. }
  destruct (new_coll_CWF StdCif Instance false) as [W0 V0]. exact (run_cops_ok ex_ops _ W0 V0 R).
Qed.
Lemma ex_ready : file_ready 2048 0 ex_coll.
Proof.
  assert (c_child ex_coll = [(u "block_1", PC (u "Block_1") None); (u "inner", PC (u "Inner") (Some (u "block_1")));
    (u "deep", PC (u "deep") (Some (u "inner"))); (u "other", PC (u "Other") None)]) as Ec by (vm_compute; reflexivity).
  assert (map snd (c_dict ex_coll) = repeat ex_stored 4) as Ed by (vm_compute; reflexivity).
  split; [exact (proj1 ex_coll_ok)|]. split; [vm_compute; discriminate|]. split; [vm_compute; discriminate|].
  intros k e b He Hg.
  assert (b = ex_stored) as ->.
  { apply (c_get_spec _ _ _ (proj1 ex_coll_ok)) in Hg. apply (in_map snd) in Hg. rewrite Ed in Hg. exact (repeat_spec 4 ex_stored b Hg). }
  assert (name_limit (c_std ex_coll) 0 e = 75%Z) as -> by (unfold name_limit; destruct (pc_parent e); vm_compute; reflexivity).
  change (c_gram ex_coll) with G11. rewrite Ec in He.
  assert (forall nm, nm <> [] -> forallb (name_char G11) nm = true -> readable_heading G11 nm) as RH.
  { intros nm H1 H2. split; [exact H1|]. apply Forall_forall. now apply forallb_forall. }
  destruct He as [H|[H|[H|[H|[]]]]]; injection H as <- <-; (split; [vm_compute; reflexivity|]); (split; [apply RH; [discriminate|vm_compute; reflexivity]|]);
    (split; [vm_compute; lia|exact ex_good]).
Qed.
Example C52_example : file_ready 2048 0 ex_coll /\ comment_text (u "#" ++ nl1 ++ nl1) /\
  exists text c', write_out 2048 [] (u "#" ++ nl1 ++ nl1) ex_coll = Ret text /\
    read_star (ROpts None 2048 false 0) text (new_coll StdCif Dictionary true) = (c', Ret true) /\
    c_order c' = [u "block_1"; u "inner"; u "deep"; u "other"].
Proof.
  split; [exact ex_ready|]. split.
  - exists [u "#"; []]. split; [|reflexivity]. constructor; [|constructor; [now left|constructor]]. right. exists []. split; [reflexivity|]. split; intros [].
  - eexists _, _. split; [vm_compute; reflexivity|]. split; [vm_compute; reflexivity|]. vm_compute. reflexivity.
Qed.
(** A frame inside a frame comes back directly inside the data block. *)
Theorem C52_nesting_refuted : exists c text c', file_ready 2048 0 c /\ write_out 2048 [] [] c = Ret text /\
  read_star (ROpts None 2048 false 0) text (new_coll StdCif Dictionary true) = (c', Ret true) /\
  exists k, get_parent k c = Ret (Some (u "inner")) /\ get_parent k c' = Ret (Some (u "block_1")).
Proof.
  exists ex_coll. eexists _, _. split; [exact ex_ready|]. split; [vm_compute; reflexivity|]. split; [vm_compute; reflexivity|].
  exists (u "deep"). split; vm_compute; reflexivity.
Qed.
(** Grammar 1.1: items that follow a save frame with the name of its data block go
    into the frame. *)
Theorem C52_same_name_refuted : exists text c' b f,
  text = u "data_a" ++ nl1 ++ u "_x 1" ++ nl1 ++ u "save_a" ++ nl1 ++ u "_y 2" ++ nl1 ++ u "save_" ++ nl1 ++ u "_z 3" ++ nl1 /\
  read_star (ROpts (Some G11) (-1) false 75) text (new_coll StdCif Dictionary false) = (c', Ret true) /\
  c_get (u "a") c' = Ret f /\ c_get (u "a+") c' = Ret b /\ get_parent (u "a") c' = Ret (Some (u "a+")) /\
  get_item (u "_z") f = Ret (VStr (u "3")) /\ get_item (u "_z") b = Raise KeyErr.
Proof.
  eexists _, _, _, _. split; [reflexivity|]. split; [vm_compute; reflexivity|]. split; [vm_compute; reflexivity|]. split; [vm_compute; reflexivity|].
  split; [vm_compute; reflexivity|]. split; vm_compute; reflexivity.
Qed.
(** The limit on the length of datanames is not applied in save frames. *)
Theorem C52_frame_limit_refuted : exists text c' f n,
  read_star (ROpts (Some G11) (-1) false 75) text (new_coll StdCif Dictionary false) = (c', Ret true) /\
  c_get (u "b") c' = Ret f /\ b_max f = 75%Z /\ has_key n f = true /\ length n = 81.
Proof.
  exists (u "data_a" ++ nl1 ++ u "save_b" ++ nl1 ++ (95%N :: repeat 97%N 80) ++ u " 2" ++ nl1 ++ u "save_" ++ nl1). eexists _, _, (95%N :: repeat 97%N 80).
  split; [vm_compute; reflexivity|]. split; [vm_compute; reflexivity|]. split; [vm_compute; reflexivity|]. split; vm_compute; reflexivity.
Qed.

Definition file_theorems :=
  (C32_ctrl_z, C32_line_limit, C32_line_number, C32_magic, C32_no_magic, C32_auto_refuted, C32_empty_refuted,
   C52_round_trip, C52_nesting_refuted, C52_same_name_refuted, C52_frame_limit_refuted).
Print Assumptions file_theorems.
