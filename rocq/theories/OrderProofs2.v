(** Templates, and reading back what is printed with them. *)
From Coq Require Import String Ascii List NArith ZArith Bool Lia Permutation.
From Verif Require Import PyBase PyFacts RegexModel FoldModel StarBlockModel LoopModel ScanModel FormatModel ReadModel WriteModel ParseModel OrderModel
  FoldSpec StarBlockSpec LoopSpec ReadSpec ScanSpec FormatSpec WriteSpec ParseSpec OrderSpec StarBlockProofs StarBlockProofs2 StarBlockProofs3 StarBlockProofs4 StarBlockProofs5 LoopProofs ReadProofs ReadProofs2
  TextProofs ScanProofs2 ScanProofs4 FormatProofs3 WriteProofs WriteProofs2 WriteProofs3 WriteProofs4 ParseProofs ParseProofs2 ParseProofs3 ParseProofs4 ParseProofs5 OrderProofs.
Import ListNotations.
Open Scope nat_scope.

(** ** Requested names of a template *)
Lemma template_perm t : WF t -> Permutation (filter (fun n => negb (str_eqb n (u "loop"))) (template_names t)) (filter (fun n => negb (str_eqb n (u "loop"))) (printed_names t)).
Proof.
  intros W. set (f := fun n => negb (str_eqb n (u "loop"))).
  assert (forall o ls, NoDup (dkeys ls) -> Permutation (order_loops o) (dkeys ls) ->
    Permutation (filter f (flat_map (fun it => match it with ON n => [n] | OL k => u "loop" :: match dget Z.eqb k ls with Some cols => cols | None => [] end end) o))
                (filter f (order_names o ++ concat (map snd ls)))) as G.
  { clear t W. intros o ls N P. rewrite filter_app.
    transitivity (filter f (order_names o) ++ filter f (concat (map (fun k => match dget Z.eqb k ls with Some cols => cols | None => [] end) (order_loops o)))).
    - clear N P. induction o as [|[n|k] o IH]; [reflexivity| |]; cbn [flat_map order_names order_loops app map concat] in *.
      + cbn [filter app]. destruct (f n); cbn [app]; [now constructor|exact IH].
      + cbn [filter]. assert (f (u "loop") = false) as -> by reflexivity. rewrite !filter_app, IH. rewrite !app_assoc.
        apply Permutation_app_tail, Permutation_app_comm.
    - apply Permutation_app_head. assert (forall l l' : list str, Permutation l l' -> Permutation (filter f l) (filter f l')) as PF.
      { induction 1; cbn [filter]; repeat match goal with |- context [f ?x] => destruct (f x) end; eauto using Permutation; reflexivity. }
      apply PF. assert (forall (l l' : list (list str)), Permutation l l' -> Permutation (concat l) (concat l')) as PC.
      { induction 1; cbn [concat]; [constructor|now apply Permutation_app_head|rewrite !app_assoc; apply Permutation_app_tail, Permutation_app_comm|etransitivity; eauto]. }
      apply PC. rewrite P. clear P. assert (map (fun k => match dget Z.eqb k ls with Some cols => cols | None => [] end) (dkeys ls) = map snd ls) as ->; [|reflexivity].
      unfold dkeys. rewrite map_map. apply map_ext_in. intros [k c] H. cbn [fst snd]. now rewrite (dget_In_NoDup _ Z.eqb_spec k c ls N H). }
  apply G; [apply (wf_nums t W)|apply (wf_refs t W)].
Qed.
Lemma template_ok t hs : WF t -> from_template t hs ->
  NoDup (requested_order hs) /\ forall n, In n (requested_order hs) -> lower n = n.
Proof.
  intros W F. assert (requested_order hs = filter (fun n => negb (str_eqb n (u "loop"))) (template_names t)) as -> by (unfold requested_order; now rewrite F). pose proof (template_perm t W) as P. split.
  - apply (Permutation_NoDup (Permutation_sym P)). apply NoDup_filter. now apply printed_NoDup.
  - intros n H. apply (Permutation_in _ P) in H. apply filter_In in H as [H _]. apply (wf_low t W). now apply (printed_In_keys t n W).
Qed.

(** ** Reading back *)
Lemma get_loop_none b n : WF b -> (get_loop_names n b = Raise KeyErr <-> forall k cols, In (k, cols) (b_loops b) -> ~ In (lower n) cols).
Proof.
  intros W. split.
  - intros E k cols Hk Hn. unfold get_loop_names in E. destruct (find_loop n b) as [j|] eqn:F.
    + destruct (wf_loop_get b n j W F) as (l1 & c' & l2 & E1 & E2 & E3 & _). rewrite E2 in E. discriminate.
    + apply (proj1 (find_loop_None n b) F). apply in_concat. exists cols. split; [|exact Hn]. apply in_map_iff. exists (k, cols). auto.
  - intros H. unfold get_loop_names. destruct (find_loop n b) as [j|] eqn:F; [|reflexivity].
    apply find_loop_Some in F as (l1 & cols & l2 & E & Hn & _). exfalso. apply (H j cols); [rewrite E; apply in_elt|exact Hn].
Qed.
Lemma rearranged_loops req b b' : rearranged req b b' ->
  (forall k c', In (k, c') (b_loops b') -> exists c, In (k, c) (b_loops b) /\ Permutation c' c) /\
  (forall k c, In (k, c) (b_loops b) -> exists c', In (k, c') (b_loops b') /\ Permutation c' c).
Proof.
  intros (_ & _ & _ & H). split; intros k c Hin.
  - induction H as [|[k1 c1] [k2 c2] l1 l2 (E & P & _) H IH]; [destruct Hin|]. cbn [fst snd] in *. subst k2. destruct Hin as [X|X].
    + injection X as -> ->. exists c1. split; [now left|exact P].
    + destruct (IH X) as (c0 & H1 & H2). exists c0. split; [now right|exact H2].
  - induction H as [|[k1 c1] [k2 c2] l1 l2 (E & P & _) H IH]; [destruct Hin|]. cbn [fst snd] in *. subst k2. destruct Hin as [X|X].
    + injection X as -> ->. exists c2. split; [now left|exact P].
    + destruct (IH X) as (c0 & H1 & H2). exists c0. split; [now right|exact H2].
Qed.
Lemma hinted_moves g maxout mx hs req b b' : WF b' -> rearranged req b b' -> hinted_text_block g maxout mx hs b -> hinted_text_block g maxout mx hs b'.
Proof.
  intros W' R (W & Hn & Hk & Hl). pose proof (rearranged_loops req b b' R) as [Ra Rb]. destruct R as (Ed & Eo & Et & _).
  assert (forall n, get_item n b' = get_item n b) as GI by (intros n; unfold get_item, get_full; now rewrite Ed).
  assert (forall n, get_loop_names n b' = Raise KeyErr -> get_loop_names n b = Raise KeyErr) as GN.
  { intros n E. rewrite (get_loop_none b' n W') in E. apply (get_loop_none b n W). intros k c Hc Hin. destruct (Rb k c Hc) as (c' & H1 & H2).
    apply (E k c' H1). apply (Permutation_in _ (Permutation_sym H2) Hin). }
  split; [exact W'|]. split; [intros n t; rewrite Et; apply Hn|]. split.
  - intros n Hi E. unfold b_keys in Hi. rewrite Ed in Hi. rewrite GI. apply (Hk n Hi). now apply GN.
  - intros k c' Hin. destruct (Ra k c' Hin) as (c & Hc & P). destruct (Hl k c Hc) as (rows & Hr & HT & Hcol & Hcell). exists rows. split; [exact Hr|].
    split; [|split].
    + destruct HT as [Nc HT]. split.
      * intros ->. apply Nc. now apply Permutation_nil.
      * intros n Hi. destruct (HT n (Permutation_in _ P Hi)) as (_ & l & G & Ln). split; [|exists l; now rewrite GI].
        apply (wf_get_loop b' n k c' W' Hin). assert (In n (b_keys b')) as Hkey.
        { apply (printed_In_keys b' n W'). unfold printed_names. apply in_or_app. right. apply in_concat. exists c'. split; [|exact Hi]. apply in_map_iff. exists (k, c'). auto. }
        now rewrite (wf_low b' W' n Hkey).
    + intros n Hi. apply Hcol. now apply (Permutation_in _ P).
    + intros n i v Hi (l & G & Hv). apply (Hcell n i v); [now apply (Permutation_in _ P)|]. exists l. rewrite GI in G. auto.
Qed.
Lemma order_WF b o : WF b -> Permutation o (b_order b) -> WF (set_order o b).
Proof.
  intros W P. assert (Permutation (order_names o) (order_names (b_order b)) /\ Permutation (order_loops o) (order_loops (b_order b))) as [P1 P2].
  { clear W. unfold order_names, order_loops. split; now apply Permutation_flat_map. }
  destruct W as [Wk Wl Wt Wc Wp Wr Wn Wpos]. constructor; unfold b_keys, printed_names in *; cbn [b_data b_loops b_order b_true set_order]; auto.
  - rewrite <- Wp. now apply Permutation_app_tail.
  - now rewrite P2.
Qed.
Lemma hinted_texts_same g maxout mx hs b b' : hinted_text_block g maxout mx hs b -> same_read b b' -> same_contents b' b.
Proof.
  intros (W & Hn & Hk & Hl) H. apply (same_read_texts g maxout mx); [|exact H]. split; [exact W|]. split; [exact Hn|].
  assert (In None (asked hs)) as HN by now left. split.
  - intros n Hi E. destruct (Hk n Hi E) as (s & G & Hc). exists s. split; [exact G|]. intros f. now apply Hc.
  - intros k c Hi. destruct (Hl k c Hi) as (rows & Hr & HT & _ & Hc). exists rows. split; [exact Hr|]. split; [exact HT|].
    intros n i v H1 H2. destruct (Hc n i v H1 H2) as (s & -> & X). exists s. split; [reflexivity|]. intros f. now apply X.
Qed.

Lemma hinted_prints g maxout mx un hs nm b : NoDup (requested_order hs) -> (forall n, In n (requested_order hs) -> lower n = n) ->
  readable_heading g nm -> hinted_text_block g maxout mx hs b ->
  exists out es, print_block g maxout hs b = Ret out /\ printed_block g maxout (nm, es, out) /\ reads_as mx un hs b (DBlock nm (read_of es)).
Proof.
  intros N L Hh HB. pose proof (proj1 HB) as W.
  destruct (full_order_ok b hs W N L) as (new & extras & b' & E & P & S & O & X & W' & R).
  set (o := new ++ extras) in *. set (b2 := set_order o b').
  assert (Permutation o (b_order b')) as P' by (destruct R as (_ & -> & _); exact P).
  assert (WF b2) as W2 by (apply order_WF; assumption).
  pose proof (hinted_moves g maxout mx hs _ b b' W' R HB) as HB'.
  assert (hinted_text_block g maxout mx hs b2) as HB2.
  { destruct HB' as (_ & H1 & H2 & H3). split; [exact W2|]. split; [exact H1|]. split; [exact H2|exact H3]. }
  destruct (hinted_block_shows g maxout mx hs b2 (hinted_text_hinted _ _ _ _ _ HB2)) as (es & HF & HR & Hfit).
  assert (Forall2 (shows b') o es) as HF' by exact HF.
  destruct (block_print g maxout hs b b' new extras es E HF') as (out & pss & Eo & HS & HL).
  { eapply Forall_impl; [|exact HR]. intros e. apply round_distinct. }
  exists out, es. split; [exact Eo|]. split.
  - split; [exact Hh|]. exists pss. split; [|exact HL].
    clear -HS HR. induction HS as [|e ps es pss H HS IH]; constructor.
    + inversion HR; subst. eapply round_entry; eauto.
    + apply IH. now inversion HR.
  - destruct (entries_read g maxout hs b' o es mx un W' P' HF' HR Hfit) as (bl & Er & Wl & HFl).
    exists o, b', bl. split; [|split; [exact R|]].
    + split; [exact P|]. exists new, extras. split; [reflexivity|]. split; [exact S|]. split; [exact O|exact X].
    + split; [exact Er|]. split; [exact Wl|]. split; [|eapply shows_places; eauto].
      assert (same_read b2 bl) as SR.
      { apply (shows_read b2 bl es W2 Wl HF HFl).
        apply Forall_forall. intros t Hi. unfold all_names in Hi. apply in_flat_map in Hi. destruct Hi as (e & He & Hi).
        rewrite Forall_forall in HR. destruct (HR e He) as [_ Hl]. destruct e as [t' v|ts vs]; cbn [legible_entry item_names] in *.
        - destruct Hi as [<-|[]]. destruct Hl as [(r & -> & _) _]. exists r. reflexivity.
        - destruct Hl as (_ & _ & Hn & _). rewrite Forall_forall in Hn. destruct (Hn t Hi) as (r & -> & _). exists r. reflexivity. }
      exact (hinted_texts_same g maxout mx hs b2 bl HB2 SR).
Qed.
Lemma hinted_file g maxout mx un hs (bs : list (str * block)) : NoDup (requested_order hs) -> (forall n, In n (requested_order hs) -> lower n = n) ->
  Forall (fun nb => readable_heading g (fst nb) /\ hinted_text_block g maxout mx hs (snd nb)) bs ->
  exists outs ds, Forall2 (fun nb o => fst o = fst nb /\ print_block g maxout hs (snd nb) = Ret (snd o)) bs outs
   /\ parse_file g (file_text outs) = Ret ds
   /\ Forall2 (fun nb d => d_name d = fst nb /\ reads_as mx un hs (snd nb) d) bs ds.
Proof.
  intros N L HB.
  assert (exists xs, Forall (printed_block g maxout) xs /\
    Forall2 (fun nb x => match x with (nm, es, out) => nm = fst nb /\ print_block g maxout hs (snd nb) = Ret out /\ reads_as mx un hs (snd nb) (DBlock nm (read_of es)) end) bs xs) as (xs & HX & HF).
  { induction HB as [|[nm b] bs [Hn Hw] HB IH]; [exists []; split; constructor|]. destruct IH as (xs & H1 & H2).
    destruct (hinted_prints g maxout mx un hs nm b N L Hn Hw) as (out & es & E & Hp & Hr). exists ((nm, es, out) :: xs). split; constructor; auto. }
  exists (map (fun x => match x with (nm, _, out) => (nm, out) end) xs), (map (fun x => match x with (nm, es, _) => DBlock nm (read_of es) end) xs).
  split; [|split].
  - clear -HF. induction HF as [|nb [[nm es] out] bs xs H HF IH]; cbn [map]; constructor; auto. cbn [fst snd]. tauto.
  - unfold parse_file. change (file_text _) with (text_of xs). rewrite (blocks_parse g maxout xs HX [] _ _ []); [reflexivity| |constructor|now left].
    clear. induction xs as [|[[nm es] out] xs IH]; [apply Nat.le_0_l|]. rewrite text_cons. cbn [length]. rewrite !app_length. cbn [length]. rewrite app_length. lia.
  - clear -HF. induction HF as [|nb [[nm es] out] bs xs H HF IH]; cbn [map]; constructor; auto. cbn [d_name d_contents]. destruct H as (-> & _ & Hw).
    split; [reflexivity|exact Hw].
Qed.
