(** C113: files written by hand are stored as they stand. *)
From Coq Require Import String Ascii List NArith ZArith PeanoNat Bool.
From Verif Require Import PyBase StarBlockModel StarBlockSpec LoopSpec ReadModel ReadSpec RegexModel ScanModel ParseModel ParseSpec CollectionModel CollectionSpec FileModel FileSpec FileProofs3 GrammarSpec WholeSpec
  WholeProofs7 PropertiesWhole HandSpec HandProofs2.
Import ListNotations.
Open Scope nat_scope.

(** A well formed text, whatever stands between its tokens, is stored: every data block
    and save frame under its name, the frames inside their data block, in each the
    datanames, values, loops and order of the text and nothing else. *)
Theorem C113_stored g ts s ds o sd sc un : set_out g ts s -> blocks_toks g ds ts -> Forall (fun d => grouped (d_contents d)) ds ->
  Forall one_level ds -> NoDup (map (fun x => lower (part_name x)) (flat_map parts ds)) -> Forall (part_fits sd (ro_maxn o)) (flat_map parts ds) ->
  s <> [] -> ~ In 26%N s -> short_lines (ro_maxlength o) s -> ro_cbf o = false -> chosen o g s -> (g = G20 -> firstn 10 s = magic) ->
  exists c, read_star o s (new_coll sd sc un) = (c, Ret true) /\ CWF c /\ visible_ok c /\ c_gram c = g /\ c_std c = sd /\ c_scope c = sc
    /\ ckeys c = map (fun x => lower (part_name x)) (flat_map parts ds) /\ c_order c = ckeys c /\ Forall (holds_part c) (flat_map parts ds).
Proof. intros S B G. apply (read_by_hand g s ds). exact (C112_complete g ts s ds S B G). Qed.
(** A text whose data block or save frame names a dataname twice (in whatever case), or
    whose loop ends within a row, is refused, whatever is in the collection. *)
Theorem C113_refused g ts s ds o p d n q its : set_out g ts s -> blocks_toks g ds ts -> Forall (fun d => grouped (d_contents d)) ds ->
  In d ds -> one_level d -> NoDup (map (fun x => lower (part_name x)) (parts d)) -> In (n, q, its) (parts d) -> Forall loop_named its -> ~ (NoDup (map lower (all_names its)) /\ Forall item_whole its) ->
  ro_grammar o = Some g -> ro_cbf o = false -> s <> [] -> ~ In 26%N s -> exists e, snd (read_star o s p) = Raise e.
Proof. intros S B G. apply (refused g s ds). exact (C112_complete g ts s ds S B G). Qed.

Lemma spaced_app w v r : spaced w (v ++ r) -> spaced v r -> spaced (w ++ v) r.
Proof.
  intros H Hv. remember (v ++ r) as q eqn:E. induction H as [q|c w q Hc H IH|w q H1 H IH|w q H1 H2 H IH|x w q H1 H2 H3 H IH]; subst q; cbn [app].
  - exact Hv.
  - apply sp_blank; [exact Hc|now apply IH].
  - apply sp_line; [now rewrite <- app_assoc|now apply IH].
  - apply sp_return; [now rewrite <- app_assoc|now rewrite <- app_assoc|now apply IH].
  - rewrite <- app_assoc. apply sp_comment; [exact H1|exact H2|now rewrite <- app_assoc|now apply IH].
Qed.
Lemma set_front g w t m ts s : t <> ScLine -> t <> EndSc -> set_out g ((t, m) :: ts) s -> spaced w s -> set_out g ((t, m) :: ts) (w ++ s).
Proof.
  intros N1 N2 H Hw. inversion H as [|v t' m' s' ts' H1 H2 H3 H4]; subst. rewrite app_assoc. apply so_tok; [now apply spaced_app|tauto|exact H3|exact H4].
Qed.
Definition ex_file : str := magic ++ nl ++ ex_text.
Example ex_file_set_out : set_out G20 ex_toks ex_file.
Proof.
  unfold ex_file. rewrite app_assoc. apply (set_front G20 (magic ++ nl)); [discriminate|discriminate|exact ex_set_out|].
  apply (sp_comment (tl magic) nl ex_text); [cbn; intuition discriminate|cbn; intuition discriminate|right; left; reflexivity|]. apply sp_line; [vm_compute; discriminate|constructor].
Qed.
Definition ex_opts : ropts := ROpts None 80 false 75.
Example C113_meets : exists c, read_star ex_opts ex_file (new_coll StdNone Instance false) = (c, Ret true)
  /\ ckeys c = [u "a"; u "f"] /\ holds_part c (u "f", Some (u "a"), [Lp [u "_c"] [VStr (u "x"); VStr (u "four" ++ nl ++ u "five")]]).
Proof.
  destruct (C113_stored G20 ex_toks ex_file ex_blocks ex_opts StdNone Instance false ex_file_set_out ex_derived) as (c & H1 & _ & _ & _ & _ & _ & H2 & _ & H3).
  - constructor; [|constructor]. repeat constructor.
  - constructor; [|constructor]. intros n l n' l' [H|[H|[]]]; [discriminate H|]. injection H as <- <-. intros [H|[]]. discriminate H.
  - vm_compute. constructor; [intros [H|[]]; discriminate H|]. constructor; [intros []|constructor].
  - constructor; [|constructor; [|constructor]].
    + split; [cbn; apply Nat.leb_le; reflexivity|]. split; [repeat constructor|]. split; [repeat constructor; intros []|]. intros _ m [<-|[]]. vm_compute. discriminate.
    + split; [cbn; apply Nat.leb_le; reflexivity|]. split.
      * constructor; [|constructor]. split; [discriminate|]. split; [exists 2; reflexivity|].
        intros vs0 H. apply (f_equal (@rev value)) in H. rewrite rev_app_distr in H. discriminate H.
      * split; [repeat constructor; intros []|]. intros _ m [<-|[]]. vm_compute. discriminate.
  - discriminate.
  - vm_compute. intuition discriminate.
  - apply too_long_None. vm_compute. reflexivity.
  - reflexivity.
  - right. split; [reflexivity|now left].
  - reflexivity.
  - exists c. split; [exact H1|]. split; [exact H2|]. rewrite Forall_forall in H3. apply H3. right. now left.
Qed.
(** A text whose second item repeats the name of the first. *)
Definition dup_toks : list lexeme := [(DataHeading, u "data_a"); (DataName, u "_b"); (Value1, u "1"); (DataName, u "_B"); (Value1, u "2")].
Definition dup_text : str := u "data_a _b 1 _B 2".
Definition dup_items : list item := [Kv (u "_b") (VStr (u "1")); Kv (u "_B") (VStr (u "2"))].
Example C113_refused_meets p : exists e, snd (read_star (ROpts (Some G11) 0 false (-1)) dup_text p) = Raise e.
Proof.
  apply (C113_refused G11 dup_toks dup_text [DBlock (u "a") [CItems dup_items]] (ROpts (Some G11) 0 false (-1)) p (DBlock (u "a") [CItems dup_items]) (u "a") None dup_items).
  - unfold dup_toks.
    eapply (set_next G11 [] DataHeading (u "data_a")); [vm_compute; reflexivity|apply sp_nil|tok_no| |].
    { exists (u "data_"), (u "a"). split; [reflexivity|]. split; [reflexivity|]. split; [|reflexivity]. split; [discriminate|repeat constructor]. }
    eapply (set_next G11 (u " ") DataName (u "_b")); [reflexivity|gap|tok_no| |].
    { split; [|reflexivity]. eexists. split; [reflexivity|]. split; [discriminate|repeat constructor]. }
    eapply (set_next G11 (u " ") Value1 (u "1")); [reflexivity|gap|tok_no|place_word|].
    eapply (set_next G11 (u " ") DataName (u "_B")); [reflexivity|gap|tok_no| |].
    { split; [|reflexivity]. eexists. split; [reflexivity|]. split; [discriminate|repeat constructor]. }
    eapply (set_next G11 (u " ") Value1 (u "2") []); [reflexivity|gap|tok_no|place_word|]. apply so_end. gap.
  - apply (bs_cons G11 (u "data_a") [CItems dup_items] (tl dup_toks) [] []); [|constructor].
    apply (c_items G11 false dup_items (tl dup_toks) [] []); [discriminate| |constructor].
    apply (is_cons G11 (Kv (u "_b") (VStr (u "1"))) (firstn 2 (tl dup_toks)) [Kv (u "_B") (VStr (u "2"))] (skipn 2 (tl dup_toks))).
    { apply (i_pair G11 (u "_b") (VStr (u "1")) [(Value1, u "1")]). apply (v_plain G11 (u "1")). }
    apply (is_cons G11 (Kv (u "_B") (VStr (u "2"))) (skipn 2 (tl dup_toks)) [] []); [|constructor].
    apply (i_pair G11 (u "_B") (VStr (u "2")) [(Value1, u "2")]). apply (v_plain G11 (u "2")).
  - constructor; [|constructor]. repeat constructor.
  - now left.
  - intros n l n' l' [H|[]]. discriminate H.
  - vm_compute. constructor; [intros []|constructor].
  - now left.
  - repeat constructor.
  - intros [H _]. vm_compute in H. inversion H as [|x l H1 H2]; subst. apply H1. now left.
  - reflexivity.
  - reflexivity.
  - discriminate.
  - vm_compute. intuition discriminate.
Qed.

Definition hand_theorems := (C113_stored, C113_refused).
Print Assumptions hand_theorems.
