(** Tokens written with a blank after each of them are read back. *)
From Coq Require Import String Ascii List NArith PeanoNat Bool Lia.
From Verif Require Import PyBase PyFacts LexModel LexSpec LexProofs LexProofs2 LexProofs3 LexProofs4 LexProofs5.
Import ListNotations.
Open Scope nat_scope.

Ltac by_start := apply not_start; cbn [starts]; unfold quote_ch, letter_ch, digit, name_ch, tag_ch in *; lia.
Definition nob (c : N) : Prop := c <> 32%N.

Lemma first_at d b k a s t rest : kinds = b ++ k :: a -> Forall (fun k' => ~ some_text k' s) b ->
  ~ some_text OPEN_PAREN s -> ~ some_text CLOSE_PAREN s -> s = t ++ rest -> shape k t rest ->
  (forall t' rest', s = t' ++ rest' -> shape k t' rest' -> length t' <= length t) -> first_of (kinds_at d) s k t rest.
Proof.
  intros E F O C Es Sh Lg. split; [|now split]. destruct d; cbn [kinds_at].
  - now exists b, a.
  - exists (OPEN_PAREN :: CLOSE_PAREN :: b), a. split; [cbn; now rewrite E|]. now constructor; [|constructor].
Qed.
(** A text without blanks cannot go beyond the first blank. *)
Lemma run_le t rest t' rest' : Forall nob t' -> t ++ 32%N :: rest = t' ++ rest' -> length t' <= length t.
Proof.
  revert t'. induction t as [|x t IH]; intros t' F E; (destruct t' as [|y t']; [cbn; lia|]); cbn in E; injection E as <- E; inversion F; subst.
  - unfold nob in *. congruence.
  - cbn. apply le_n_S. now apply IH.
Qed.
(** What follows a text without blanks stands before the first blank, or is it. *)
Lemma next_in x j r t rest : Forall nob x -> x ++ j :: r = t ++ 32%N :: rest -> In j t \/ j = 32%N /\ x = t.
Proof.
  intros F E. destruct (split_cases _ _ _ _ _ _ E) as [(z & Ez)|[[A B]|(z & Ez)]].
  - rewrite Ez in F. apply Forall_app in F. destruct F as [_ F]. inversion F as [|? ? H _]; subst. now elim H.
  - right. now split.
  - left. rewrite Ez. apply in_app_iff. right. now left.
Qed.
Lemma digits_nob x : Forall digit x -> Forall nob x.
Proof. apply Forall_impl. unfold digit, nob. lia. Qed.
Lemma real_nob x : real_text x -> Forall nob x.
Proof.
  intros (m & e & -> & (a & b & -> & Fa & Fb & _) & He). rewrite !Forall_app. repeat split.
  - now apply digits_nob. - repeat constructor; discriminate. - now apply digits_nob.
  - destruct He as [->|(y & sg & ds & -> & Hy & Hs & [_ Fd])]; [constructor|]. constructor; [unfold nob; lia|]. apply Forall_app. split; [|now apply digits_nob].
    destruct Hs as [->|[->| ->]]; repeat constructor; discriminate.
Qed.
Lemma no_imag t rest : Forall (fun c => digit c \/ c = 46%N) t -> ~ some_text IMAGINARY (t ++ 32%N :: rest).
Proof.
  intros F (y & r & E & (x & j & -> & Hx & Hj)). rewrite <- app_assoc in E. cbn [app] in E.
  assert (Forall nob x) as Fx by (destruct Hx as [Hx|[_ Hx]]; [now apply real_nob|now apply digits_nob]).
  destruct (next_in x j r t rest Fx (eq_sym E)) as [I|[-> _]]; [|lia].
  rewrite Forall_forall in F. specialize (F j I). unfold digit in F. lia.
Qed.
Lemma no_real t rest : Forall digit t -> ~ some_text REAL (t ++ 32%N :: rest).
Proof.
  intros F (y & r & E & (m & e & -> & (a & b & -> & Fa & Fb & _) & _)). rewrite <- !app_assoc in E. cbn [app] in E.
  destruct (next_in a 46%N (b ++ e ++ r) t rest (digits_nob _ Fa) (eq_sym E)) as [I|[H _]]; [|discriminate].
  rewrite Forall_forall in F. specialize (F _ I). unfold digit in F. lia.
Qed.
Lemma no_prefixed k (l : list N) t rest : Forall (fun c => digit c \/ c = 46%N) t ->
  (forall y r, shape k y r -> exists x ds, y = 48%N :: x :: ds /\ (x = 66 \/ x = 98 \/ x = 79 \/ x = 111 \/ x = 88 \/ x = 120)%N) ->
  ~ some_text k (t ++ 32%N :: rest).
Proof.
  intros F H (y & r & E & Sh). destruct (H y r Sh) as (x & ds & -> & Hx). destruct t as [|c [|c2 t]]; cbn in E.
  - discriminate.
  - injection E as _ E. lia.
  - injection E as _ -> _. inversion F as [|? ? _ F2]; subst. inversion F2 as [|? ? F3 _]; subst. unfold digit in F3. lia.
Qed.
Lemma bin_x y r : shape BININT y r -> exists x ds, y = 48%N :: x :: ds /\ (x = 66 \/ x = 98 \/ x = 79 \/ x = 111 \/ x = 88 \/ x = 120)%N.
Proof. intros (x & ds & -> & H & _). exists x, ds. split; [reflexivity|lia]. Qed.
Lemma oct_x y r : shape OCTINT y r -> exists x ds, y = 48%N :: x :: ds /\ (x = 66 \/ x = 98 \/ x = 79 \/ x = 111 \/ x = 88 \/ x = 120)%N.
Proof. intros (x & ds & -> & H & _). exists x, ds. split; [reflexivity|lia]. Qed.
Lemma hex_x y r : shape HEXINT y r -> exists x ds, y = 48%N :: x :: ds /\ (x = 66 \/ x = 98 \/ x = 79 \/ x = 111 \/ x = 88 \/ x = 120)%N.
Proof. intros (x & ds & -> & H & _). exists x, ds. split; [reflexivity|lia]. Qed.

(** ** Names *)
Definition else_like (t : list N) : Prop := exists a b e d, t = [a; b; e; d] /\ either 69 a /\ either 76 b /\ either 83 e /\ either 69 d.
Lemma first_id d c x rest : letter_ch c -> Forall name_ch x -> ~ else_like (c :: x) -> first_of (kinds_at d) ((c :: x) ++ 32%N :: rest) ID (c :: x) (32%N :: rest).
Proof.
  intros L F NE. assert (Forall name_ch (c :: x)) as FC by (constructor; [left; exact L|exact F]).
  eapply (first_at d [AUGOP; OPEN_PAREN; IMAGINARY; REAL; BININT; OCTINT; HEXINT; INTEGER; STRPREFIX; LONGSTRING; SHORTSTRING; ELSEIF]); [reflexivity| | | |reflexivity| |].
  - cbn [app]. repeat apply Forall_cons; try apply Forall_nil; try by_start.
    + intros (w & r & E & I & (q & r' & -> & Hq)). assert (Forall nob w) as Fw.
      { cbn [map In] in I. destruct I as [<-|[<-|[<-|[<-|[<-|[<-|[<-|[<-|[]]]]]]]]]; repeat (apply Forall_cons; [discriminate|]); apply Forall_nil. }
      destruct (next_in w q r' (c :: x) rest Fw (eq_sym E)) as [J|[-> _]]; [|destruct Hq; discriminate].
      rewrite Forall_forall in FC. specialize (FC q J). unfold name_ch, letter_ch, digit in FC. destruct Hq as [->| ->]; lia.
    + intros (y & r & E & (a & b & e & f & sp & i & g & -> & Ha & Hb & He & Hf & [Ns Fs] & _)). destruct sp as [|w sp]; [now elim Ns|].
      inversion Fs as [|? ? Ww _]; subst. assert (Forall nob [a; b; e; f]) as Fw by (unfold either, nob in *; repeat constructor; lia).
      rewrite <- !app_assoc in E. destruct (next_in [a; b; e; f] w (sp ++ [i; g] ++ r) (c :: x) rest Fw (eq_sym E)) as [J|[-> Ex]].
      * rewrite Forall_forall in FC. specialize (FC w J). unfold name_ch, letter_ch, digit, white in *. lia.
      * apply NE. exists a, b, e, f. rewrite Ex. repeat (split; [assumption || reflexivity|]). assumption.
  - cbn [app]. by_start.
  - cbn [app]. by_start.
  - exists c, x. now split.
  - intros t' r' E (c' & x' & -> & L' & F'). apply (run_le (c :: x) rest (c' :: x') r'); [|exact E].
    constructor; [unfold nob, letter_ch in *; lia|]. eapply Forall_impl; [|exact F']. unfold nob, name_ch, letter_ch, digit. lia.
Qed.

(** ** Numbers *)
Lemma first_integer d t rest : some_of digit t -> first_of (kinds_at d) (t ++ 32%N :: rest) INTEGER t (32%N :: rest).
Proof.
  intros [Ne F]. assert (Forall (fun c => digit c \/ c = 46%N) t) as F2 by (eapply Forall_impl; [|exact F]; now left).
  assert (exists c s, t = c :: s /\ digit c) as (c & s & Et & Dc) by (destruct t as [|c s]; [now elim Ne|inversion F; subst; now exists c, s]).
  eapply (first_at d [AUGOP; OPEN_PAREN; IMAGINARY; REAL; BININT; OCTINT; HEXINT]); [reflexivity| | | |reflexivity| |].
  - repeat apply Forall_cons; try apply Forall_nil.
    + rewrite Et. cbn [app]. by_start. + rewrite Et. cbn [app]. by_start. + now apply no_imag. + now apply no_real.
    + apply (no_prefixed _ []); [exact F2|exact bin_x]. + apply (no_prefixed _ []); [exact F2|exact oct_x]. + apply (no_prefixed _ []); [exact F2|exact hex_x].
  - rewrite Et. cbn [app]. by_start.
  - rewrite Et. cbn [app]. by_start.
  - now split.
  - intros t' r' E [_ F']. apply (run_le t rest t' r'); [now apply digits_nob|exact E].
Qed.
Lemma first_real d a b rest : Forall digit a -> Forall digit b -> a ++ b <> [] -> first_of (kinds_at d) ((a ++ [46%N] ++ b) ++ 32%N :: rest) REAL (a ++ [46%N] ++ b) (32%N :: rest).
Proof.
  intros Fa Fb Ne. assert (Forall (fun c => digit c \/ c = 46%N) (a ++ [46%N] ++ b)) as F2.
  { rewrite !Forall_app. repeat split; [eapply Forall_impl; [|exact Fa]; now left|constructor; [now right|constructor]|eapply Forall_impl; [|exact Fb]; now left]. }
  assert (exists c s, a ++ [46%N] ++ b = c :: s /\ (digit c \/ c = 46%N)) as (c & s & Et & Dc).
  { destruct a as [|y a]; cbn [app] in *; [eexists; eexists; split; [reflexivity|now right]|]. inversion Fa; subst. eexists; eexists; split; [reflexivity|now left]. }
  eapply (first_at d [AUGOP; OPEN_PAREN; IMAGINARY]); [reflexivity| | | |reflexivity| |].
  - repeat apply Forall_cons; try apply Forall_nil.
    + rewrite Et. cbn [app]. by_start. + rewrite Et. cbn [app]. by_start. + now apply no_imag.
  - rewrite Et. cbn [app]. by_start.
  - rewrite Et. cbn [app]. by_start.
  - exists (a ++ [46%N] ++ b), []. split; [now rewrite app_nil_r|]. split; [now exists a, b|now left].
  - intros t' r' E R. apply (run_le (a ++ [46%N] ++ b) rest t' r'); [now apply real_nob|exact E].
Qed.

(** ** Tags and strings *)
Lemma first_tag d x rest : some_of tag_ch x -> first_of (kinds_at d) ((95%N :: x) ++ 32%N :: rest) ITEM_TAG (95%N :: x) (32%N :: rest).
Proof.
  intros [Ne F]. eapply (first_at d [AUGOP; OPEN_PAREN; IMAGINARY; REAL; BININT; OCTINT; HEXINT; INTEGER; STRPREFIX; LONGSTRING; SHORTSTRING; ELSEIF; ID]); [reflexivity| | | |reflexivity| |].
  - cbn [app]. repeat apply Forall_cons; try apply Forall_nil; by_start.
  - cbn [app]. by_start. - cbn [app]. by_start.
  - exists x. now split.
  - intros t' r' E (x' & -> & [_ F']). apply (run_le (95%N :: x) rest (95%N :: x') r'); [|exact E].
    constructor; [discriminate|]. eapply Forall_impl; [|exact F']. unfold nob, tag_ch, letter_ch, digit. lia.
Qed.
Lemma first_string d q x rest : quote_ch q -> ~ In q x -> ~ In 10%N x -> first_of (kinds_at d) ((q :: x ++ [q]) ++ 32%N :: rest) SHORTSTRING (q :: x ++ [q]) (32%N :: rest).
Proof.
  intros Hq Nx Nn. eapply (first_at d [AUGOP; OPEN_PAREN; IMAGINARY; REAL; BININT; OCTINT; HEXINT; INTEGER; STRPREFIX; LONGSTRING]); [reflexivity| | | |reflexivity| |].
  - cbn [app]. repeat apply Forall_cons; try apply Forall_nil; try by_start.
    intros (t & r & E & (q' & y & _ & -> & _)). cbn [app] in E. injection E as <- E. destruct x as [|c x]; cbn in E.
    + injection E as E. destruct Hq; congruence.
    + injection E as -> _. apply Nx. now left.
  - cbn [app]. by_start. - cbn [app]. by_start.
  - exists q, x. now split.
  - intros t' r' E (q' & x' & _ & -> & Nx' & _). cbn [app] in E. injection E as <- E. rewrite <- !app_assoc in E. cbn [app] in E.
    destruct (short_one q x (32%N :: rest) x' r' Nx Nx' E) as [-> _]. apply le_n.
Qed.

(** ** Single characters *)
Lemma dot_no_real rest : ~ some_text REAL (46%N :: 32%N :: rest).
Proof.
  intros (y & r & E & (m & e & -> & (a & b & -> & Fa & Fb & Ne) & _)). destruct a as [|c a]; cbn [app] in E.
  - injection E as E. destruct b as [|c b]; [now elim Ne|]. cbn in E. injection E as <- _. inversion Fb as [|? ? H _]. unfold digit in H. lia.
  - injection E as <- _. inversion Fa as [|? ? H _]. unfold digit in H. lia.
Qed.
Lemma single_none d c rest : single_ch c -> Forall (fun k => ~ some_text k (c :: 32%N :: rest)) (kinds_at d).
Proof.
  intros Sg. assert (forall k, In k kinds -> fixed_texts k <> [] -> ~ some_text k (c :: 32%N :: rest)) as Q.
  { intros k I Hf (t & r & E & Sh). assert (In t (map u (fixed_texts k))) as J by (destruct k; try (elim Hf; reflexivity); exact Sh).
    destruct k; cbn [fixed_texts map In] in J; try (now elim Hf); repeat (destruct J as [<-|J]; [try (cbn in E; discriminate)|]); try contradiction.
    - cbn in E. injection E as -> _. revert Sg. vm_compute. intuition discriminate.
    - exfalso. revert I. cbn. intuition discriminate. }
  assert (~ some_text OPEN_PAREN (c :: 32%N :: rest) /\ ~ some_text CLOSE_PAREN (c :: 32%N :: rest)) as [O C].
  { split; apply not_start; cbn [starts]; intros ->; revert Sg; vm_compute; intuition discriminate. }
  assert (Forall (fun k => ~ some_text k (c :: 32%N :: rest)) kinds) as F.
  { unfold kinds. unfold single_ch in Sg. assert (In c [43; 42; 45; 47; 59; 91; 93; 44; 58; 94; 60; 62; 123; 125; 61; 46; 96; 38; 124]%N) as Sc by exact Sg.
    assert (~ some_text IMAGINARY (c :: 32%N :: rest) /\ ~ some_text REAL (c :: 32%N :: rest)) as [NI NR].
    { assert (c = 46%N \/ ~ digit c /\ c <> 46%N) as [->|[Nd Nc]].
      { cbn [In] in Sc. unfold digit. lia. }
      - split; [|apply dot_no_real]. apply (no_imag [46%N]). constructor; [now right|constructor].
      - split; apply not_start; cbn [starts]; tauto. }
    repeat apply Forall_cons; try apply Forall_nil; try assumption; try (apply Q; [cbn; tauto|discriminate]);
      apply not_start; cbn [starts]; cbn [In] in Sc; unfold quote_ch, letter_ch, digit; lia. }
  destruct d; cbn [kinds_at]; [exact F|]. now constructor; [|constructor].
Qed.

(** ** Reserved words *)
Definition letterb (c : N) : bool := ((97 <=? c) && (c <=? 122) || (65 <=? c) && (c <=? 90))%N.
Definition else_likeb (t : list N) : bool :=
  match t with
  | [a; b; e; d] => ((a =? 69) || (a =? 101)) && ((b =? 76) || (b =? 108)) && ((e =? 83) || (e =? 115)) && ((d =? 69) || (d =? 101))
  | _ => false
  end%N.
Lemma word_name k t : is_word k t -> exists c x, t = c :: x /\ letter_ch c /\ Forall name_ch x /\ (k <> ELSE -> ~ else_like t).
Proof.
  intros W. apply is_word_all in W.
  assert (forallb (fun tk => match fst tk with c :: x => letterb c && forallb letterb x | [] => false end && (if kind_eq_dec (snd tk) ELSE then true else negb (else_likeb (fst tk)))) all_words = true) as Q by (vm_compute; reflexivity).
  rewrite forallb_forall in Q. specialize (Q _ W). cbn [fst snd] in Q. destruct t as [|c x]; [discriminate|]. rewrite !andb_true_iff in Q. destruct Q as [[A B] C].
  assert (forall y, letterb y = true -> letter_ch y) as L by (intros y; unfold letterb, letter_ch; rewrite orb_true_iff, !andb_true_iff, !N.leb_le; tauto).
  exists c, x. split; [reflexivity|]. split; [now apply L|]. split; [apply Forall_forall; intros y I; rewrite forallb_forall in B; left; exact (L _ (B y I))|].
  intros Hk (a & b & e & d & E & Ha & Hb & He & Hd). destruct (kind_eq_dec k ELSE); [contradiction|]. rewrite E in C. cbn [else_likeb] in C.
  unfold either in *. rewrite negb_true_iff in C.
  assert (((a =? 69) || (a =? 101)) = true /\ ((b =? 76) || (b =? 108)) = true /\ ((e =? 83) || (e =? 115)) = true /\ ((d =? 69) || (d =? 101)) = true)%N as (A1 & A2 & A3 & A4).
  { repeat split; apply orb_true_iff; rewrite !N.eqb_eq; assumption. }
  rewrite A1, A2, A3, A4 in C. discriminate.
Qed.

Lemma plain_reads d k t rest ts d' : plain_token k t -> reads d rest ts d' -> reads d (t ++ 32%N :: rest) ((k, t) :: ts) d'.
Proof.
  intros P R. assert (reads d (32%N :: rest) ts d') as R2 by (apply reads_gap; [left; now left|exact R]).
  assert (forall k0, first_of (kinds_at d) (t ++ 32%N :: rest) k0 t (32%N :: rest) -> gives k0 t [(k, t)] -> depth_after k0 d = d -> (forall c s', t = c :: s' -> ~ gap d c) -> t <> [] -> reads d (t ++ 32%N :: rest) ((k, t) :: ts) d') as Q.
  { intros k0 F G D NG Ne. change ((k, t) :: ts) with ([(k, t)] ++ ts). apply (reads_token d _ k0 t (32%N :: rest)); [|exact F|exact G|now rewrite D].
    intros c s' E. destruct t as [|y t]; [now elim Ne|]. cbn in E. injection E as <- _. exact (NG y t eq_refl). }
  destruct P as [c x L F W NE|k t W Nk|t H|x H|q x Hq Nx Nn|a b Fa Fb Ne|c Sg].
  - apply (Q ID); [now apply first_id|now apply gives_id|reflexivity| |discriminate]. intros y s' E. injection E as <- <-. unfold gap, letter_ch in *. lia.
  - destruct (word_name k t W) as (c & x & -> & L & F & NE). apply (Q ID); [now apply first_id; [| |apply NE]|now apply gives_word|reflexivity| |discriminate].
    intros y s' E. injection E as <- <-. unfold gap, letter_ch in *. lia.
  - apply (Q INTEGER); [now apply first_integer|apply gives_same; cbn; intuition discriminate|reflexivity| |now destruct H].
    intros y s' ->. destruct H as [_ F]. inversion F; subst. unfold gap, digit in *. lia.
  - apply (Q ITEM_TAG); [now apply first_tag|apply gives_same; cbn; intuition discriminate|reflexivity| |discriminate].
    intros y s' E. injection E as <- _. unfold gap. lia.
  - apply (Q SHORTSTRING); [now apply first_string|apply gives_same; cbn; intuition discriminate|reflexivity| |discriminate].
    intros y s' E. injection E as <- _. unfold gap, quote_ch in *. lia.
  - apply (Q REAL); [now apply first_real|apply gives_same; cbn; intuition discriminate|reflexivity| |].
    + intros y s' E. destruct a as [|z a]; cbn in E; injection E as <- _; [unfold gap; lia|]. inversion Fa; subst. unfold gap, digit in *. lia.
    + destruct a; discriminate.
  - cbn [app]. apply reads_single; [|now apply single_none|exact Sg|exact R2].
    assert (In c [43; 42; 45; 47; 59; 91; 93; 44; 58; 94; 60; 62; 123; 125; 61; 46; 96; 38; 124]%N) as Sc by exact Sg. cbn [In] in Sc. unfold gap. lia.
Qed.
Theorem written_reads d ts : Forall (fun x => plain_token (fst x) (snd x)) ts -> reads d (written ts) ts d.
Proof.
  induction 1 as [|[k t] ts P F IH]; cbn [written flat_map]; [constructor|]. fold (written ts). cbn [fst snd] in *. rewrite <- app_assoc. cbn [app]. now apply plain_reads.
Qed.
