(** The parser follows the tokens: items, frames, blocks and files. *)
From Coq Require Import String Ascii List NArith PeanoNat Bool Lia.
From Verif Require Import PyBase PyFacts RegexModel RegexFacts FoldModel ScanModel ReadModel ParseModel
  ScanFacts ScanSpec ScanProofs ScanProofs2 ScanProofs3 TextProofs TextProofs2 ParseSpec GrammarSpec WholeSpec WholeProofs WholeProofs2 WholeProofs3 WholeProofs4 WholeProofs5.
Import ListNotations.
Open Scope nat_scope.

Section Follow.
Context (g : grammar).
Notation looked := (looked g). Notation fresh := (fresh g). Notation ready := (ready g).

Lemma value_reads v vs ts st : value_toks g v vs -> ready (vs ++ ts) (value_first g) st -> exists st', data_value g st = Ret (v, st') /\ fresh ts st'.
Proof.
  intros V F. destruct (values_read g v vs V) as (_ & _ & H). unfold data_value. pose proof (ready_size g _ _ _ F) as L. rewrite app_length in L. apply (H ts st _ F). lia.
Qed.
Lemma value_next v vs : value_toks g v vs -> In (next vs) (value_first g) /\ vs <> [].
Proof. intros V. destruct (values_read g v vs V) as (H1 & H2 & _). now split. Qed.
Lemma fields_place : place g (DataName :: value_first g). Proof. right. right. now left. Qed.
Lemma values_place : place g (value_first g ++ item_follow). Proof. right. right. right. now left. Qed.
Lemma item_place : place g item_follow. Proof. right. right. right. right. now left. Qed.
Lemma file_place : place g [DataHeading; End]. Proof. right. right. right. right. now right. Qed.
Lemma not_value t : In t item_follow -> expect (value_first g) t = false.
Proof. intros H. cbn in H. destruct g; repeat (destruct H as [<-|H]; [reflexivity|]); destruct H. Qed.
Lemma expect_true t R : In t R -> expect R t = true. Proof. intros H. now apply tmem_In. Qed.

Lemma fields_read ns : forall acc ts st fuel, In (next ts) (value_first g) -> fresh (map (fun n => (DataName, n)) ns ++ ts) st -> length ns <= fuel ->
  exists st' R, loop_fields fuel g acc st = Ret (acc ++ ns, st') /\ looked ts R st' /\ incl (value_first g) R.
Proof.
  induction ns as [|n ns IH]; intros acc ts st fuel H F L; cbn [map app] in F.
  - destruct (peek_ready g _ _ _ (ready_fresh g _ _ _ F fields_place) fields_place) as (st1 & R & E & K & I); [now right|].
    exists st1, R. split; [|split; [exact K|intros x Hx; apply I; now right]].
    assert (tok_eqb (next ts) DataName = false) as N by (destruct g; cbn in H; repeat (destruct H as [<-|H]; [reflexivity|]); destruct H).
    destruct fuel; cbn [loop_fields]; rewrite E; cbn [obind]; rewrite N, (expect_true (next ts)) by (now right); now rewrite app_nil_r.
  - cbn [length] in L. destruct fuel as [|fuel]; [lia|]. cbn [loop_fields].
    destruct (peek_ready g _ _ _ (ready_fresh g _ _ _ F fields_place) fields_place) as (st1 & R & -> & K & I); [now left|]. cbn [obind next tok_eqb].
    destruct (take_looked g DataName n _ R st1 K) as (st2 & -> & F2); [apply I; now left|]. cbn [obind fst snd].
    destruct (IH (acc ++ [n]) ts st2 fuel H F2 ltac:(lia)) as (st3 & R3 & -> & K3 & I3). exists st3, R3. split; [now rewrite <- app_assoc|now split].
Qed.
Lemma loop_read vs ws : values_toks g vs ws -> forall acc ts st fuel, In (next ts) item_follow -> fresh (ws ++ ts) st -> length vs <= fuel ->
  exists st' R, loop_values fuel g acc st = Ret (acc ++ vs, st') /\ looked ts R st' /\ incl item_follow R.
Proof.
  induction 1 as [|v ws vs ws' V _ IH]; intros acc ts st fuel H F L.
  - cbn [app] in F. destruct (peek_ready g _ _ _ (ready_fresh g _ _ _ F values_place) values_place) as (st1 & R & E & K & I); [apply in_or_app; now right|].
    exists st1, R. split; [|split; [exact K|intros x Hx; apply I; apply in_or_app; now right]].
    destruct fuel; cbn [loop_values]; rewrite E; cbn [obind]; rewrite (not_value _ H), (expect_true (next ts)) by (apply in_or_app; now right); now rewrite app_nil_r.
  - cbn [length] in L. destruct fuel as [|fuel]; [lia|]. cbn [loop_values]. rewrite <- app_assoc in F. destruct (value_next v ws V) as [N1 N2].
    destruct (peek_ready g _ _ _ (ready_fresh g _ _ _ F values_place) values_place) as (st1 & R & -> & K & I); [rewrite next_app by exact N2; apply in_or_app; now left|]. cbn [obind].
    rewrite next_app by exact N2. rewrite (expect_true _ _ N1).
    destruct (value_reads v ws (ws' ++ ts) st1 V) as (st2 & -> & F2); [apply (ready_looked g _ _ R _ K); intros x Hx; apply I; apply in_or_app; now left|]. cbn [obind fst snd].
    destruct (IH (acc ++ [v]) ts st2 fuel H F2 ltac:(lia)) as (st3 & R3 & -> & K3 & I3). exists st3, R3. split; [now rewrite <- app_assoc|now split].
Qed.
Lemma values_length vs ws : values_toks g vs ws -> length vs <= length ws.
Proof. induction 1 as [|v ws vs ws' V _ IH]; [cbn; lia|]. destruct (value_next v ws V) as [_ N]. rewrite app_length. cbn [length]. destruct ws; [congruence|cbn [length]; lia]. Qed.

Lemma item_read i its : item_toks g i its -> forall ts st R, In (next ts) item_follow -> looked (its ++ ts) R st -> incl item_follow R ->
  exists st', data_item g st = Ret (i, st') /\ ready ts item_follow st'.
Proof.
  intros H ts st R N K I. unfold data_item.
  assert (peek g [LBlock; DataName] st = Ret (next its, st)) as ->.
  { destruct H; cbn [one app WholeProofs5.looked next] in *; destruct K as (s & -> & _); (apply peek_pend; [discriminate|]); intros x Hx; apply I; cbn in Hx |- *; tauto. }
  cbn [obind]. destruct H as [n v vs V|m ns vs ws Hne V]; cbn [one app next] in *.
  - replace (tok_eqb DataName LBlock) with false by reflexivity. replace (tok_eqb DataName DataName) with true by reflexivity.
    destruct (take_looked g DataName n _ R st K) as (st2 & -> & F2); [apply I; cbn; tauto|]. cbn [obind fst snd].
    destruct (value_reads v vs ts st2 V (ready_fresh g _ _ _ F2 (value_place_ok g))) as (st3 & -> & F3). cbn [obind fst snd].
    exists st3. split; [reflexivity|]. exact (ready_fresh g _ _ _ F3 item_place).
  - replace (tok_eqb LBlock LBlock) with true by reflexivity.
    destruct (take_looked g LBlock m _ R st K) as (st2 & -> & F2); [apply I; cbn; tauto|]. cbn [obind fst snd].
    destruct V as [|v ws vs ws' V V']; [congruence|]. destruct (value_next v ws V) as [N1 N2]. rewrite <- !app_assoc in F2.
    destruct (fields_read ns [] (ws ++ ws' ++ ts) st2 (size st2)) as (st3 & R3 & -> & K3 & I3); [now rewrite next_app by exact N2|exact F2| |].
    { pose proof (fresh_size g _ _ F2) as L. rewrite app_length in L. pose proof (map_length (fun n : str => (DataName, n)) ns) as Y. unfold str in *. lia. }
    cbn [obind fst snd]. destruct (value_reads v ws _ st3 V (ready_looked g _ _ _ _ K3 I3)) as (st4 & -> & F4). cbn [obind fst snd].
    destruct (loop_read vs ws' V' [v] ts st4 (size st4) N F4) as (st5 & R5 & -> & K5 & I5).
    { pose proof (fresh_size g _ _ F4) as L. rewrite app_length in L. pose proof (values_length vs ws' V'). lia. }
    cbn [obind fst snd]. exists st5. split; [reflexivity|]. exact (ready_looked g _ _ _ _ K5 I5).
Qed.
Lemma item_next i its : item_toks g i its -> In (next its) [LBlock; DataName] /\ its <> [].
Proof. intros []; cbn; (split; [tauto|discriminate]). Qed.
Lemma items_next l its ts : items_toks g l its -> In (next ts) item_follow -> In (next (its ++ ts)) item_follow.
Proof.
  intros H N. destruct H as [|i its l its' Hi _]; [exact N|]. destruct (item_next i its Hi) as [Hn Hne]. rewrite <- app_assoc, next_app by exact Hne. cbn in Hn |- *. tauto.
Qed.
Lemma items_length l its : items_toks g l its -> length l <= length its.
Proof. induction 1 as [|i its l its' H _ IH]; [cbn; lia|]. destruct (item_next i its H) as [_ N]. rewrite app_length. cbn [length]. destruct its; [congruence|cbn [length]; lia]. Qed.
Lemma items_read l its : items_toks g l its -> forall acc ts st fuel, In (next ts) item_follow -> ~ In (next ts) [LBlock; DataName] -> ready (its ++ ts) item_follow st -> length l <= fuel ->
  exists st' R, data_more fuel g acc st = Ret (acc ++ l, st') /\ looked ts R st' /\ incl item_follow R.
Proof.
  induction 1 as [|i its l its' Hi Hl IH]; intros acc ts st fuel N N' F L.
  - cbn [app] in F. destruct (peek_ready g _ _ _ F item_place) as (st1 & R & E & K & I); [exact N|].
    exists st1, R. split; [|now split]. assert (expect [LBlock; DataName] (next ts) = false) as X.
    { destruct (expect [LBlock; DataName] (next ts)) eqn:X; [|reflexivity]. exfalso. apply N'. now apply tmem_In. }
    destruct fuel; cbn [data_more]; rewrite E; cbn [obind]; rewrite X, (expect_true _ _ N); now rewrite app_nil_r.
  - cbn [length] in L. destruct fuel as [|fuel]; [lia|]. cbn [data_more]. rewrite <- app_assoc in F. destruct (item_next i its Hi) as [Hn Hne].
    destruct (peek_ready g _ _ _ F item_place) as (st1 & R & -> & K & I); [rewrite next_app by exact Hne; cbn in Hn |- *; tauto|]. cbn [obind].
    rewrite next_app by exact Hne. rewrite (expect_true _ _ Hn).
    destruct (item_read i its Hi (its' ++ ts) st1 R (items_next _ _ _ Hl N) K I) as (st2 & -> & F2). cbn [obind fst snd].
    destruct (IH (acc ++ [i]) ts st2 fuel N N' F2 ltac:(lia)) as (st3 & R3 & -> & K3 & I3). exists st3, R3. split; [now rewrite <- app_assoc|now split].
Qed.
Lemma seq_read l its : l <> [] -> items_toks g l its -> forall ts st R, In (next ts) item_follow -> ~ In (next ts) [LBlock; DataName] -> looked (its ++ ts) R st -> incl item_follow R ->
  exists st' R', data_seq g st = Ret (l, st') /\ looked ts R' st' /\ incl item_follow R'.
Proof.
  intros Hne H ts st R N N' K I. destruct H as [|i its l its' Hi Hl]; [congruence|]. unfold data_seq. rewrite <- app_assoc in K.
  destruct (item_read i its Hi (its' ++ ts) st R (items_next _ _ _ Hl N) K I) as (st2 & -> & F2). cbn [obind fst snd].
  apply (items_read l its' Hl [i] ts st2 (size st2) N N' F2). pose proof (ready_size g _ _ _ F2) as L. rewrite app_length in L. pose proof (items_length l its' Hl). lia.
Qed.

Definition stops : list tok := [SaveEnd; DataHeading; End].
Lemma contents_next b cs its ts : contents_toks g b cs its -> In (next ts) stops -> In (next (its ++ ts)) item_follow /\ (match cs with CItems _ :: _ => False | _ => True end -> ~ In (next (its ++ ts)) [LBlock; DataName]).
Proof.
  intros H N. assert (In (next ts) item_follow /\ ~ In (next ts) [LBlock; DataName]) as [N1 N2] by (cbn in N; repeat (destruct N as [<-|N]; [split; [cbn; tauto|cbn; intuition discriminate]|]); destruct N).
  destruct H as [b|b l its cs its' Hne Hl _|b h l its e cs its' _ _ _].
  - split; [exact N1|intros _; exact N2].
  - split; [|intros []]. destruct Hl as [|i its l its0 Hi _]; [congruence|]. destruct (item_next i its Hi) as [Hn Hn']. rewrite <- !app_assoc, next_app by exact Hn'. cbn in Hn |- *. tauto.
  - split; [cbn; tauto|intros _; cbn; intuition discriminate].
Qed.
Lemma contents_read b cs its : contents_toks g b cs its -> grouped cs -> forall ts st fuel, In (next ts) stops -> ready (its ++ ts) item_follow st -> length its < fuel ->
  exists st' R, contents fuel g b st = Ret (cs, st') /\ looked ts R st' /\ incl item_follow R.
Proof.
  induction 1 as [b|b l its cs its' Hne Hl Hc IH|b h l its e cs its' Hb Hl IHl Hc IHc]; intros Gr ts st fuel N F L; (destruct fuel as [|fuel]; [lia|]); cbn [contents].
  - cbn [app] in F. destruct (contents_next b [] [] ts (c_nil g b) N) as [N1 N2]. specialize (N2 I).
    destruct (peek_ready g _ _ _ F item_place) as (st1 & R & -> & K & Inc); [exact N1|]. cbn [obind app] in *. exists st1, R. split; [|now split].
    cbn in N. repeat (destruct N as [<-|N]; [reflexivity|]). destruct N.
  - inversion Gr as [|l' cs' Hcs Gr'|]; subst. rewrite <- app_assoc in F. destruct (contents_next b cs its' ts Hc N) as [N1 N2]. specialize (N2 Hcs).
    assert (In (next its) [LBlock; DataName] /\ its <> []) as [Hn Hn'].
    { destruct Hl as [|i its l its0 Hi _]; [congruence|]. destruct (item_next i its Hi) as [X Y]. rewrite next_app by exact Y. split; [exact X|]. intros Z. apply app_eq_nil in Z. tauto. }
    destruct (peek_ready g _ _ _ F item_place) as (st1 & R & -> & K & Inc); [rewrite next_app by exact Hn'; cbn in Hn |- *; tauto|]. cbn [obind].
    rewrite next_app by exact Hn'. rewrite (expect_true _ _ Hn).
    destruct (seq_read l its Hne Hl (its' ++ ts) st1 R N1 N2 K Inc) as (st2 & R2 & -> & K2 & I2). cbn [obind fst snd].
    rewrite app_length in L. assert (1 <= length its) by (destruct its; [congruence|cbn; lia]).
    destruct (IH Gr' ts st2 fuel N (ready_looked g _ _ _ _ K2 I2) ltac:(lia)) as (st3 & R3 & -> & K3 & I3). cbn [obind fst snd]. exists st3, R3. split; [reflexivity|now split].
  - inversion Gr as [| |n l' cs' Gl Gc]; subst. rewrite <- !app_assoc in F. cbn [one app] in F. cbn [one length app] in L. rewrite !app_length in L. cbn [length] in L.
    destruct (peek_ready g _ _ _ F item_place) as (st1 & R & -> & K & Inc); [cbn; tauto|]. cbn [obind next].
    replace (expect [LBlock; DataName] SaveHeading) with false by reflexivity.
    replace (tok_eqb SaveHeading SaveHeading && negb (b && match g with G20 => true | _ => false end)) with true by (destruct b; [destruct g; try reflexivity; now specialize (Hb eq_refl)|reflexivity]).
    destruct (take_looked g SaveHeading h _ R st1 K) as (st2 & -> & F2); [apply Inc; cbn; tauto|]. cbn [obind fst snd].
    destruct (IHl Gl ((SaveEnd, e) :: its' ++ ts) st2 fuel) as (st3 & R3 & -> & K3 & I3); [cbn; tauto|exact (ready_fresh g _ _ _ F2 item_place)|lia|]. cbn [obind fst snd].
    destruct (take_looked g SaveEnd e _ R3 st3 K3) as (st4 & -> & F4); [apply I3; cbn; tauto|]. cbn [obind fst snd].
    destruct (IHc Gc ts st4 fuel N (ready_fresh g _ _ _ F4 item_place) ltac:(lia)) as (st5 & R5 & -> & K5 & I5). cbn [obind fst snd].
    exists st5, R5. split; [reflexivity|now split].
Qed.

Lemma blocks_read ds bts : blocks_toks g ds bts -> Forall (fun d => grouped (d_contents d)) ds -> forall acc st fuel, ready bts [DataHeading; End] st -> length bts <= fuel -> parse_more fuel g acc st = Ret (acc ++ ds).
Proof.
  induction 1 as [|h cs its bs bts Hc Hb IH]; intros Gr acc st fuel F L.
  - destruct (peek_ready g _ _ _ F file_place) as (st1 & R & E & K & I); [cbn; tauto|]. cbn [WholeProofs5.looked] in K. subst st1.
    assert (take g End (PS [] (Some (End, [], R))) = Ret ([], PS [] None)) as T by (apply take_pend; [apply I; cbn; tauto|specialize (I End ltac:(cbn; tauto)); intros ->; destruct I]).
    destruct fuel; cbn [parse_more]; rewrite E; cbn [obind next tok_eqb]; (replace (tok_eqb End DataHeading) with false by reflexivity); rewrite T; cbn [obind]; now rewrite app_nil_r.
  - inversion Gr as [|d ds Gd Gs]; subst. cbn [one app length] in L. destruct fuel as [|fuel]; [lia|]. cbn [parse_more]. cbn [one app] in F. rewrite app_length in L.
    destruct (peek_ready g _ _ _ F file_place) as (st1 & R & -> & K & I); [cbn; tauto|]. cbn [obind next]. replace (tok_eqb DataHeading DataHeading) with true by reflexivity.
    unfold parse_dblock. destruct (take_looked g DataHeading h _ R st1 K) as (st2 & -> & F2); [apply I; cbn; tauto|]. cbn [obind fst snd].
    assert (In (next bts) stops) as N by (destruct Hb; cbn; tauto).
    destruct (contents_read false cs its Hc Gd bts st2 (S (size st2)) N (ready_fresh g _ _ _ F2 item_place)) as (st3 & R3 & -> & K3 & I3).
    { pose proof (fresh_size g _ _ F2) as X. rewrite app_length in X. lia. }
    cbn [obind fst snd]. rewrite (IH Gs); [now rewrite <- app_assoc| |lia].
    apply (ready_looked g _ _ _ _ K3). intros x Hx. apply I3. cbn in Hx |- *. tauto.
Qed.
Theorem file_read ts s ds : set_out g ts s -> blocks_toks g ds ts -> Forall (fun d => grouped (d_contents d)) ds -> parse_file g s = Ret ds.
Proof.
  intros S B Gr. unfold parse_file. rewrite (blocks_read ds ts B Gr [] (PS s None) (length s)); [reflexivity| |now apply (set_length g)].
  apply (ready_fresh g); [exists s; split; [reflexivity|exact S]|exact file_place].
Qed.
End Follow.
