(** Properties of printing: C25 to C27. *)
From Coq Require Import String Ascii List NArith ZArith Bool Lia Permutation.
From Verif Require Import PyBase PyFacts RegexModel FoldModel StarBlockModel LoopModel ScanModel FormatModel ReadModel WriteModel ParseModel
  FoldSpec StarBlockSpec LoopSpec ReadSpec ScanSpec FormatSpec WriteSpec ParseSpec
  ReadProofs2 WriteProofs WriteProofs2 WriteProofs3 WriteProofs4 ParseProofs3 ParseProofs4 ParseProofs5 ParseProofs6.
Import ListNotations.
Open Scope nat_scope.

(** * C25: what is written *)
Theorem C25_concatenation : forall ops k k', write_all ops k = Ret k' ->
  exists o, k_out k' = k_out k ++ o /\ interleaved (map (fun x => (a_delim (fst x), snd x)) ops) o.
Proof.
  induction ops as [|[a s] ops IH]; intros k k' H; cbn [write_all map interleaved fst snd] in *.
  - injection H as <-. exists []. now rewrite app_nil_r.
  - destruct (write a s k) as [k1|e] eqn:E; [|discriminate]. cbn [obind] in H.
    destruct (write_spec _ _ _ _ E) as (w & t & O & B & T & _). destruct (IH _ _ H) as (o & O' & I).
    exists (w ++ t ++ o). split; [rewrite O', O, <- !app_assoc; reflexivity|]. exists w, t, o. auto.
Qed.
Theorem C25_accepts : forall ops k, Forall (fun x => snd x <> [] /\ (a_delim (fst x) = true -> length (snd x) = 1)) ops ->
  exists k', write_all ops k = Ret k'.
Proof.
  induction ops as [|[a s] ops IH]; intros k H; cbn [write_all]; [eauto|]. apply Forall_cons_iff in H. destruct H as [[H1 H2] H].
  cbn [fst snd] in *. destruct (write_total a s k H1) as [k1 E]; [destruct (a_delim a); auto|]. rewrite E. cbn [obind]. now apply IH.
Qed.
(** An empty string is refused when the line is full. *)
Theorem C25_empty_refuted : exists ops k, Forall (fun x => a_delim (fst x) = false) ops /\ write_all ops k = Raise IndexErr.
Proof.
  exists [(plain_args, repeat 97%N 81); (WArgs true false true false false false (-1), [])], new_sink. split; [repeat constructor|vm_compute; reflexivity].
Qed.

Lemma laid_pieces ps : forall q o, Forall (fun p => forall v f, p = PVal v f -> compound v = false) ps -> (forall v f, q = Some (PVal v f) -> compound v = false) ->
  laid_after q ps o -> laid (map ptext ps) o.
Proof.
  induction ps as [|p ps IH]; intros q o Hp Hq H; cbn [laid_after laid map] in *; [exact H|].
  apply Forall_cons_iff in Hp. destruct Hp as [Hp Hps]. destruct H as (w & r & -> & Hw & Hg & Hr). exists w, r. split; [reflexivity|]. split; [exact Hw|]. split.
  - destruct Hg as [Hg|[Hg|Hg]]; [now left|now right|]. exfalso. unfold touching in Hg. destruct q as [[| |v f]|], p as [| |v' f']; try discriminate.
    rewrite (Hq v f eq_refl), (Hp v' f' eq_refl) in Hg. discriminate.
  - apply (IH (Some p)); auto. intros v f E. injection E as ->. now apply (Hp v f).
Qed.
Lemma val_written g maxout hs v p : (exists s, v = VStr s) -> is_val g maxout hs v p ->
  spelt g maxout hs v (ptext p) /\ (forall v f, p = PVal v f -> compound v = false).
Proof.
  intros [s ->] (f & req & -> & Hr & Hp). split.
  - exists s, req. split; [reflexivity|]. split; [|exact Hp]. destruct Hr as [<-|Hr]; [now left|]. right. apply in_map_iff in Hr. destruct Hr as (h & <- & Hr). eauto.
  - intros v f' E. injection E as <- _. reflexivity.
Qed.
Lemma vals_written g maxout hs vs qs : Forall (fun v => exists s, v = VStr s) vs -> Forall2 (is_val g maxout hs) vs qs ->
  Forall2 (spelt g maxout hs) vs (map ptext qs) /\ Forall (fun p => forall v f, p = PVal v f -> compound v = false) qs.
Proof.
  intros Hv HF. induction HF as [|v p vs qs H HF IH]; [split; constructor|]. apply Forall_cons_iff in Hv. destruct Hv as [H1 H2].
  destruct (val_written _ _ _ _ _ H1 H). destruct (IH H2). split; constructor; auto.
Qed.
(** Printing a block of texts: the tokens of its entries in the output order, apart
    from each other. *)
Theorem C25_block : forall g maxout hs b new extras b' es,
  full_order hs b = Ret (new, extras, b') -> Forall2 (shows b') (new ++ extras) es -> Forall (text_entry hs) es ->
  exists out tss, print_block g maxout hs b = Ret out /\ Forall2 (tokens_of g maxout hs) es tss /\ laid (concat tss) out.
Proof.
  intros g maxout hs b new extras b' es Ho HF Ht.
  destruct (block_print g maxout hs b b' new extras es Ho HF) as (out & pss & E & HS & HL).
  { eapply Forall_impl; [|exact Ht]. intros [t v|ts vs]; cbn [text_entry distinct].
    - intros [Hn [s ->]]. split; [exact Hn|]. split; [constructor|exact I].
    - intros (Hn & Hv & Hh). split; [exact Hn|]. split; [eapply Forall_impl; [|exact Hv]; intros v [s ->]; constructor|]. left. split.
      + eapply Forall_impl; [|exact Hv]. intros v [s ->]. reflexivity.
      + intros n Hi. apply in_map_iff in Hi. destruct Hi as (t & <- & Hi). now apply Hh. }
  exists out, (map (map ptext) pss). split; [exact E|].
  assert (Forall2 (tokens_of g maxout hs) es (map (map ptext) pss) /\ Forall (fun p => forall v f, p = PVal v f -> compound v = false) (concat pss)) as [H1 H2].
  { clear -HS Ht. induction HS as [|e ps es pss H HS IH]; [split; constructor|]. apply Forall_cons_iff in Ht. destruct Ht as [He Ht].
    destruct (IH Ht) as [I1 I2]. destruct e as [t v|ts vs]; cbn [text_entry spells] in *.
    - destruct H as (p & -> & Hv). destruct He as [_ He]. destruct (val_written _ _ _ _ _ He Hv) as [V1 V2]. cbn [map concat]. split.
      + constructor; [|exact I1]. exists (ptext p). split; [reflexivity|exact V1].
      + apply Forall_app. split; [|exact I2]. constructor; [discriminate|]. constructor; [exact V2|constructor].
    - destruct H as (qs & -> & Hv). destruct He as (_ & He & _). destruct (vals_written _ _ _ _ _ He Hv) as [V1 V2]. cbn [map concat]. split.
      + constructor; [|exact I1]. exists (map ptext qs). split; [|exact V1]. cbn [ptext]. f_equal. rewrite map_app. f_equal. rewrite map_map. apply map_id.
      + apply Forall_app. split; [|exact I2]. constructor; [discriminate|]. apply Forall_app. split; [|exact V2]. apply Forall_map. apply Forall_forall. discriminate. }
  split; [exact H1|]. rewrite <- concat_map. eapply laid_pieces; [exact H2| |exact HL]. discriminate.
Qed.

(** Values run into each other: a column hint of 0 ... *)
Definition rep (n : nat) (c : N) : str := repeat c n.
Definition two_texts : block := fst (read_block [Lp [u "_a"; u "_b"] [VStr (rep 85 97); VStr (u "z")]] (empty_block false 0 false)).
Definition zero_hint : list hint := [Hint (u "_a") None None None; Hint (u "_b") None (Some 0%Z) None].
Theorem C25_hint_refuted : exists b hs out pre, print_block G11 2048 hs b = Ret out
  /\ cell b (u "_a") 0 (VStr (rep 85 97)) /\ cell b (u "_b") 0 (VStr (u "z")) /\ out = pre ++ rep 85 97 ++ u "z"
  /\ parse_file G11 (file_text [(u "x", out)]) = Ret [DBlock (u "x") [CItems [Lp [u "_a"; u "_b"] [VStr (rep 85 97 ++ u "z")]]]].
Proof.
  exists two_texts, zero_hint, (match print_block G11 2048 zero_hint two_texts with Ret o => o | Raise _ => [] end).
  exists (firstn 26 (match print_block G11 2048 zero_hint two_texts with Ret o => o | Raise _ => [] end)).
  split; [vm_compute; reflexivity|]. split; [eexists; split; vm_compute; reflexivity|]. split; [eexists; split; vm_compute; reflexivity|].
  split; vm_compute; reflexivity.
Qed.
(** ... or a list earlier in the row; no hints needed. *)
Definition list_texts : block :=
  fst (read_block [Lp [u "_a"; u "_b"; u "_c"] [VSL [VStr (u "q")]; VStr (rep 85 97); VStr (u "z")]] (empty_block false 0 false)).
Theorem C25_list_refuted : exists b out pre, print_block G20 2048 [] b = Ret out
  /\ cell b (u "_b") 0 (VStr (rep 85 97)) /\ cell b (u "_c") 0 (VStr (u "z")) /\ out = pre ++ rep 85 97 ++ u "z"
  /\ parse_file G20 (file_text [(u "x", out)])
     = Ret [DBlock (u "x") [CItems [Lp [u "_a"; u "_b"; u "_c"] [VSL [VStr (u "q")]; VStr (rep 85 97 ++ u "z")]]]].
Proof.
  exists list_texts, (match print_block G20 2048 [] list_texts with Ret o => o | Raise _ => [] end).
  exists (firstn 26 (match print_block G20 2048 [] list_texts with Ret o => o | Raise _ => [] end)).
  split; [vm_compute; reflexivity|]. split; [eexists; split; vm_compute; reflexivity|]. split; [eexists; split; vm_compute; reflexivity|].
  split; vm_compute; reflexivity.
Qed.
(** A table joins the name before it when the name fills the line. *)
Definition long_named : block :=
  fst (read_block [Kv (u "_" ++ rep 80 97) (VDict [(u "k", VStr (u "v"))])] (empty_block false 0 false)).
Theorem C25_table_refuted : exists b out post, print_block G20 2048 [] b = Ret out
  /\ get_item (u "_" ++ rep 80 97) b = Ret (VDict [(u "k", VStr (u "v"))]) /\ out = [NL] ++ u "_" ++ rep 80 97 ++ u "{" ++ post
  /\ parse_file G20 (file_text [(u "x", out)]) = Raise SyntaxErr.
Proof.
  exists long_named, (match print_block G20 2048 [] long_named with Ret o => o | Raise _ => [] end).
  exists (skipn 83 (match print_block G20 2048 [] long_named with Ret o => o | Raise _ => [] end)).
  split; [vm_compute; reflexivity|]. split; [vm_compute; reflexivity|]. split; vm_compute; reflexivity.
Qed.

(** * C26: blocks of texts *)
Theorem C26_round_trip : forall g maxout mx un (bs : list (str * block)),
  Forall (fun nb => readable_heading g (fst nb) /\ text_block g maxout mx (snd nb)) bs ->
  exists outs ds, Forall2 (fun nb o => fst o = fst nb /\ print_block g maxout [] (snd nb) = Ret (snd o)) bs outs
    /\ parse_file g (file_text outs) = Ret ds
    /\ Forall2 (fun nb d => d_name d = fst nb /\ exists b', read_block (plain_items (d_contents d)) (empty_block false mx un) = (b', Ret tt)
         /\ WF b' /\ same_contents b' (snd nb) /\ Forall2 (same_place (snd nb) b') (b_order (snd nb)) (b_order b')) bs ds.
Proof.
  intros g maxout mx un bs H. destruct (file_round g maxout mx un bs) as (outs & ds & H1 & H2 & H3).
  - eapply Forall_impl; [|exact H]. intros nb [Hh Ht]. split; [exact Hh|]. now apply (good_block_writable g maxout mx), text_block_good.
  - exists outs, ds. split; [exact H1|]. split; [exact H2|]. clear -H H3. induction H3 as [|nb d bs ds X H3 IH]; constructor.
    + apply Forall_cons_iff in H. destruct H as [[_ Ht] _]. destruct X as (X1 & b' & X2 & X3 & X4 & X5). split; [exact X1|]. exists b'.
      split; [exact X2|]. split; [exact X3|]. split; [|exact X5]. eapply same_read_texts; eauto.
    + apply IH. now apply Forall_cons_iff in H.
Qed.
(** A loop without rows is written but cannot be read. *)
Definition one_row : block := fst (create_loop [u "_a"] (-1) true (fst (add_item (u "_a") (VList [VStr (u "1")]) false (empty_block false 0 false)))).
Theorem C26_no_rows_refuted : exists b out, is_table one_row [u "_a"] 1
  /\ remove_keyed_packet (u "_a") (VStr (u "1")) one_row = (b, Ret tt) /\ is_table b [u "_a"] 0 /\ print_block G11 2048 [] b = Ret out
  /\ parse_file G11 (file_text [(u "x", out)]) = Raise SyntaxErr.
Proof.
  exists (fst (remove_keyed_packet (u "_a") (VStr (u "1")) one_row)),
    (match print_block G11 2048 [] (fst (remove_keyed_packet (u "_a") (VStr (u "1")) one_row)) with Ret o => o | Raise _ => [] end).
  assert (forall b l, get_loop_names (u "_a") b = Ret [u "_a"] -> get_item (u "_a") b = Ret (VList l) -> is_table b [u "_a"] (length l)) as K.
  { intros b l H1 H2. split; [discriminate|]. intros n [<-|[]]. eauto. }
  split; [apply (K one_row [VStr (u "1")]); vm_compute; reflexivity|]. split; [vm_compute; reflexivity|].
  split; [apply (K _ []); vm_compute; reflexivity|]. split; vm_compute; reflexivity.
Qed.

(** * C27: lists and tables *)
Theorem C27_round_trip : forall g maxout mx un (bs : list (str * block)),
  Forall (fun nb => readable_heading g (fst nb) /\ good_block g maxout mx (snd nb)) bs ->
  exists outs ds, Forall2 (fun nb o => fst o = fst nb /\ print_block g maxout [] (snd nb) = Ret (snd o)) bs outs
    /\ parse_file g (file_text outs) = Ret ds
    /\ Forall2 (fun nb d => d_name d = fst nb /\ exists b', read_block (plain_items (d_contents d)) (empty_block false mx un) = (b', Ret tt)
         /\ WF b' /\ same_read (snd nb) b' /\ Forall2 (same_place (snd nb) b') (b_order (snd nb)) (b_order b')) bs ds.
Proof.
  intros g maxout mx un bs H. apply (file_round g maxout mx un bs). eapply Forall_impl; [|exact H].
  intros nb [Hh Hb]. split; [exact Hh|]. now apply good_block_writable.
Qed.

(** A quote in the key of a table is written as it is and ends the key. *)
Definition quoted_key : block :=
  fst (add_item (u "_a") (VDict [(u "it's", VStr (u "v"))]) false (empty_block true 0 true)).
Theorem C27_key_refuted : exists b out, add_item (u "_a") (VDict [(u "it's", VStr (u "v"))]) false (empty_block true 0 true) = (b, Ret tt)
  /\ print_block G20 2048 [] b = Ret out /\ forall d, parse_file G20 (file_text [(u "x", out)]) <> Ret d.
Proof.
  exists quoted_key, (match print_block G20 2048 [] quoted_key with Ret o => o | Raise _ => [] end).
  split; [vm_compute; reflexivity|]. split; [vm_compute; reflexivity|].
  intros d. assert (parse_file G20 (file_text [(u "x", match print_block G20 2048 [] quoted_key with Ret o => o | Raise _ => [] end)]) = Raise SyntaxErr) as ->; [|discriminate].
  vm_compute. reflexivity.
Qed.

(** Which texts and values are covered, in simple terms. *)
Theorem C26_ordinary_texts : forall g maxout in_loop s, ordinary s -> clear_text g maxout in_loop s.
Proof. exact ordinary_clear. Qed.
Theorem C27_ordinary_values : forall g maxout v, has_triples g -> ordinary_value v -> forall in_loop, legible g maxout in_loop None v.
Proof. intros g maxout v Hg Hv b. apply ordinary_legible; auto. Qed.

(** ** Examples *)
Definition ex_texts : list item :=
  [Kv (u "_Cell.length_a") (VStr (u "5.43(2)"));
   Lp [u "_atom_site_label"; u "_Atom_site_note"] [VStr (u "C1"); VStr (u "it's the first"); VStr (u "O2"); VStr (rep 90 65 ++ [NL] ++ u ";x")];
   Kv (u "_publ_text") (VStr (u "first line" ++ [NL] ++ u "second line"))].
Definition ex_text_block : block := fst (read_block ex_texts (empty_block false 0 false)).
Lemma ordinary_by s : forallb (fun c => (negb (is_space c) || existsb (N.eqb c) [32; 9; 10]%N) && negb (c =? 92)%N && negb (c =? 35)%N) s = true ->
  first_is 115 s || first_is 83 s || first_is 108 s || first_is 76 s = false -> ordinary s.
Proof.
  intros H Hf. rewrite forallb_forall in H.
  assert (forall c, In c s -> (is_space c = false \/ In c [32; 9; 10]%N) /\ c <> 92%N /\ c <> 35%N) as K.
  { intros c Hc. specialize (H c Hc). apply andb_true_iff in H. destruct H as [H H3]. apply andb_true_iff in H. destruct H as [H1 H2].
    split; [|split; [intros ->; discriminate|intros ->; discriminate]].
    apply orb_true_iff in H1. destruct H1 as [H1|H1]; [left; now apply negb_true_iff|right]. apply existsb_exists in H1. destruct H1 as (x & Hx & E). apply N.eqb_eq in E. now subst. }
  split; [intros c Hc; now apply K|]. split; [intros X; destruct (K _ X) as (_ & A & _); congruence|]. split; [intros X; destruct (K _ X) as (_ & _ & A); congruence|]. split.
  - intros (a & z & -> & E). destruct a as [|x a]; [discriminate|]. cbn in Hf. cbn in E. injection E as E _.
    unfold lower_char in E. destruct ((65 <=? x) && (x <=? 90))%N eqn:Ex.
    + assert (x = 83%N) as -> by lia. discriminate.
    + subst x. discriminate.
  - intros E. destruct s as [|x s]; [discriminate|]. cbn in E. injection E as E _.
    unfold lower_char in E. destruct ((65 <=? x) && (x <=? 90))%N eqn:Ex.
    + assert (x = 76%N) as -> by lia. discriminate.
    + subst x. discriminate.
Qed.
Lemma names_by g r : forallb (fun c => name_char g c) r = true -> r <> [] -> readable_name g (u "_" ++ r).
Proof. intros H Hr. exists r. split; [reflexivity|]. split; [exact Hr|]. apply Forall_forall. now rewrite forallb_forall in H. Qed.
Lemma dataname_by n : first_is 95 n = true -> is_dataname n.
Proof. destruct n as [|c n]; [discriminate|]. cbn. intros H. apply N.eqb_eq in H. subst c. exists n. reflexivity. Qed.
Example C26_example : readable_heading G11 (u "Block_1") /\ text_block G11 2048 0 ex_text_block /\ b_order ex_text_block = [ON (u "_cell.length_a"); OL 1; ON (u "_publ_text")]
  /\ get_item (u "_ATOM_site_label") ex_text_block = Ret (VList [VStr (u "C1"); VStr (u "O2")]).
Proof.
  split; [split; [discriminate|apply Forall_forall; intros c H; cbn in H; repeat (destruct H as [<-|H]; [reflexivity|]); destruct H]|].
  split; [|split; vm_compute; reflexivity].
  assert (WF ex_text_block) as W.
  { destruct (read_block_full ex_texts 0 false) as (_ & H & _); [| |apply H; vm_compute; reflexivity].
    - unfold ex_texts. repeat constructor; try discriminate; try (apply dataname_by; reflexivity).
    - unfold ex_texts. constructor; [exact I|]. constructor; [|constructor; [exact I|constructor]]. intros vs0 E. apply (f_equal (@rev value)) in E. rewrite rev_app_distr in E. cbn in E. discriminate. }
  split; [exact W|]. split; [|split].
  - intros n t H. apply (dget_In _ str_eqb_spec) in H. split; [|intros X; discriminate].
    assert (b_true ex_text_block = map (fun t => (lower t, t)) (all_names ex_texts)) as E by (vm_compute; reflexivity). rewrite E in H.
    apply in_map_iff in H. destruct H as (t' & Et & H). injection Et as _ ->. cbn [ex_texts all_names flat_map item_names app] in H.
    destruct H as [<-|[<-|[<-|[<-|[]]]]]; match goal with |- readable_name _ ?x => change x with (u "_" ++ tl x) end; (apply names_by; [vm_compute; reflexivity|discriminate]).
  - intros n Hi E. assert (b_keys ex_text_block = [u "_cell.length_a"; u "_atom_site_label"; u "_atom_site_note"; u "_publ_text"]) as Ek by (vm_compute; reflexivity). rewrite Ek in Hi.
    destruct Hi as [<-|[<-|[<-|[<-|[]]]]]; try (vm_compute in E; discriminate);
      (eexists; split; [vm_compute; reflexivity|]; apply ordinary_clear, ordinary_by; vm_compute; reflexivity).
  - intros k cols Hi. assert (b_loops ex_text_block = [(1%Z, [u "_atom_site_label"; u "_atom_site_note"])]) as El by (vm_compute; reflexivity). rewrite El in Hi.
    destruct Hi as [E|[]]. injection E as <- <-. exists 2. split; [lia|]. split.
    + split; [discriminate|]. intros n [<-|[<-|[]]]; (split; [vm_compute; reflexivity|]; eexists; split; [vm_compute; reflexivity|reflexivity]).
    + intros n i v [<-|[<-|[]]] (l & G & Hi); vm_compute in G; injection G as <-;
        (destruct i as [|[|i]]; [| |destruct i; discriminate]; injection Hi as <-; eexists; (split; [reflexivity|]); apply ordinary_clear, ordinary_by; vm_compute; reflexivity).
Qed.

Definition ex_values : list item :=
  [Kv (u "_import.get") (VSL [VDict [(u "file", VStr (u "core.dic")); (u "mode", VSL [VStr (u "Full"); VSL []])]]);
   Lp [u "_a"; u "_b"] [VStr (u "one"); VSL [VStr (u "1"); VStr (u "it's")]; VStr (u "two"); VDict [(u "k", VStr (u "v w"))]]].
Definition ex_value_block : block := fst (read_block ex_values (empty_block false 0 false)).
Example C27_example : readable_heading G20 (u "b") /\ good_block G20 2048 0 ex_value_block
  /\ get_item (u "_import.get") ex_value_block = Ret (VSL [VDict [(u "file", VStr (u "core.dic")); (u "mode", VSL [VStr (u "Full"); VSL []])]]).
Proof.
  split; [split; [discriminate|apply Forall_forall; intros c H; cbn in H; repeat (destruct H as [<-|H]; [reflexivity|]); destruct H]|].
  split; [|vm_compute; reflexivity].
  assert (forall s, ordinary s -> ordinary_value (VStr s)) as OS by (intros; now constructor).
  assert (forall s, forallb (fun c => (negb (is_space c) || existsb (N.eqb c) [32; 9; 10]%N) && negb (c =? 92)%N && negb (c =? 35)%N) s = true ->
    first_is 115 s || first_is 83 s || first_is 108 s || first_is 76 s = false -> ordinary_value (VStr s)) as OB by (intros; apply OS; now apply ordinary_by).
  assert (forall k, forallb (fun c => negb (existsb (N.eqb c) [NL; CR; FF; QS])) k = true -> key_ok k) as KO.
  { intros k H. rewrite forallb_forall in H. repeat split; intros X; specialize (H _ X); discriminate. }
  assert (WF ex_value_block) as W.
  { destruct (read_block_full ex_values 0 false) as (_ & H & _); [| |apply H; vm_compute; reflexivity].
    - unfold ex_values. repeat constructor; try discriminate; try (apply dataname_by; reflexivity).
    - unfold ex_values. constructor; [exact I|]. constructor; [|constructor]. intros vs0 E. apply (f_equal (@rev value)) in E. rewrite rev_app_distr in E. cbn in E. discriminate. }
  assert (forall l, Forall ordinary_value l -> ordinary_value (VSL l)) as OL by (intros; now constructor).
  assert (forall b v, ordinary_value v -> legible G20 2048 b None v) as OV by (intros b v Hv; apply ordinary_legible; [left; now left|exact Hv]).
  split; [exact W|]. split; [|split].
  - intros n t H. apply (dget_In _ str_eqb_spec) in H. split; [|intros X; discriminate].
    assert (b_true ex_value_block = map (fun t => (lower t, t)) (all_names ex_values)) as E by (vm_compute; reflexivity). rewrite E in H.
    apply in_map_iff in H. destruct H as (t' & Et & H). injection Et as _ ->. cbn [ex_values all_names flat_map item_names app] in H.
    destruct H as [<-|[<-|[<-|[]]]]; match goal with |- readable_name _ ?x => change x with (u "_" ++ tl x) end; (apply names_by; [vm_compute; reflexivity|discriminate]).
  - intros n Hi E. assert (b_keys ex_value_block = [u "_import.get"; u "_a"; u "_b"]) as Ek by (vm_compute; reflexivity). rewrite Ek in Hi.
    destruct Hi as [<-|[<-|[<-|[]]]]; try (vm_compute in E; discriminate).
    eexists. split; [vm_compute; reflexivity|]. split; [|exact I]. apply OV, OL. constructor; [|constructor]. constructor.
    + apply NoDup_cons; [cbn; intuition discriminate|]. apply NoDup_cons; [intros []|constructor].
    + constructor; [split; [apply KO; reflexivity|apply OB; reflexivity]|]. constructor; [|constructor]. split; [apply KO; reflexivity|].
      apply OL. constructor; [apply OB; reflexivity|]. constructor; [apply OL; constructor|constructor].
  - intros k cols Hi. assert (b_loops ex_value_block = [(1%Z, [u "_a"; u "_b"])]) as El by (vm_compute; reflexivity). rewrite El in Hi.
    destruct Hi as [E|[]]. injection E as <- <-. exists 2. split; [lia|].
    assert (forall n i v, In n [u "_a"; u "_b"] -> cell ex_value_block n i v ->
      (n = u "_a" /\ (v = VStr (u "one") \/ v = VStr (u "two"))) \/ (n = u "_b" /\ (v = VSL [VStr (u "1"); VStr (u "it's")] \/ v = VDict [(u "k", VStr (u "v w"))]))) as K.
    { intros n i v [<-|[<-|[]]] (l & G & Hi); vm_compute in G; injection G as <-; (destruct i as [|[|i]]; [| |destruct i; discriminate]; injection Hi as <-; tauto). }
    split; [|split; [|split]].
    + split; [discriminate|]. intros n [<-|[<-|[]]]; (split; [vm_compute; reflexivity|]; eexists; split; [vm_compute; reflexivity|reflexivity]).
    + intros n i v Hn Hc. apply OV. destruct (K n i v Hn Hc) as [[_ [->| ->]]|[_ [->| ->]]].
      * apply OB; reflexivity.
      * apply OB; reflexivity.
      * apply OL. constructor; [apply OB; reflexivity|]. constructor; [apply OB; reflexivity|constructor].
      * constructor; [apply NoDup_cons; [intros []|constructor]|]. constructor; [|constructor]. split; [apply KO; reflexivity|apply OB; reflexivity].
    + right. intros j n m i v w Hj Hj2 Hv Hw. destruct j as [|[|j]]; [|discriminate|destruct j; discriminate]. injection Hj as <-. injection Hj2 as <-.
      destruct (K _ i w (or_intror (or_introl eq_refl)) Hw) as [[X _]|[_ [->| ->]]]; [discriminate|right; reflexivity|right; reflexivity].
    + intros n v Hn Hc. cbn in Hn. injection Hn as <-. destruct (K _ _ v (or_intror (or_introl eq_refl)) Hc) as [[X _]|[_ [->| ->]]]; [discriminate|split; discriminate|split; discriminate].
Qed.
Example C25_example : exists es, full_order [] ex_text_block = Ret ([], b_order ex_text_block, ex_text_block)
  /\ Forall2 (shows ex_text_block) ([] ++ b_order ex_text_block) es /\ Forall (text_entry []) es /\ length es = 3.
Proof.
  exists ex_texts. split; [apply full_order_nil|].
  assert (Forall item_ok ex_texts) as H1 by (unfold ex_texts; repeat constructor; try discriminate; try (apply dataname_by; reflexivity)).
  assert (Forall loop_full ex_texts) as H2.
  { unfold ex_texts. constructor; [exact I|]. constructor; [|constructor; [exact I|constructor]]. intros vs0 E. apply (f_equal (@rev value)) in E. rewrite rev_app_distr in E. cbn in E. discriminate. }
  destruct (read_block_full ex_texts 0 false H1 H2) as (_ & H3 & _). destruct H3 as (W & Hh & Hk & Ht & Ho & Hl); [vm_compute; reflexivity|].
  unfold ex_text_block. split; [|split; [|reflexivity]].
  - cbn [app]. rewrite Ho. apply layout_shows; [apply (wf_nums _ W)|exact Hh| |rewrite Hl; apply incl_refl].
    intros t Hi. cbn [ex_texts all_names flat_map item_names app] in Hi. destruct Hi as [<-|[<-|[<-|[<-|[]]]]]; vm_compute; reflexivity.
  - assert (forall t, forallb (fun c => negb (existsb (N.eqb c) [32; 10; 9]%N)) t = true -> first_is 95 t = true -> plain_name t) as K.
    { intros t X Y. split; [now apply dataname_by|]. intros c Hc Hb. rewrite forallb_forall in X. specialize (X c Hc). apply negb_true_iff in X.
      assert (existsb (N.eqb c) [32; 10; 9]%N = true) as X' by (apply existsb_exists; exists c; split; [exact Hb|apply N.eqb_refl]). congruence. }
    unfold ex_texts. constructor; [split; [apply K; reflexivity|eauto]|]. constructor; [|constructor; [split; [apply K; reflexivity|eauto]|constructor]].
    split; [repeat constructor; try (apply K; reflexivity)|]. split; [|intros t _; discriminate]. repeat constructor; eauto.
Qed.

(** One command for all the theorems above: what it lists is the union of what they
    depend on. *)
Definition write_theorems :=
  (C25_concatenation,
   C25_accepts,
   C25_empty_refuted,
   C25_block,
   C25_hint_refuted,
   C25_list_refuted,
   C25_table_refuted,
   C26_round_trip,
   C26_no_rows_refuted,
   C26_ordinary_texts,
   C27_round_trip,
   C27_key_refuted,
   C27_ordinary_values).
Print Assumptions write_theorems.
