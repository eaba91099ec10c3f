(** What printing a value writes. *)
From Coq Require Import String Ascii List NArith ZArith Bool Lia ZifyBool ZifyN ZifyNat.
From Verif Require Import PyBase PyFacts RegexModel FoldModel StarBlockModel LoopModel ScanModel FormatModel WriteModel
  FoldSpec ScanSpec FormatSpec LoopProofs FormatProofs FormatProofs2 WriteSpec WriteProofs.
Import ListNotations.
Open Scope nat_scope.

Definition bare (k : sink) : Prop := exists c, k_last k = Some c /\ ~ In c [32; 10; 9]%N.
Definition bare_end (s : str) : Prop := exists c, last_char s = Some c /\ ~ In c [32; 10; 9]%N.

Lemma last_char_app s c : last_char (s ++ [c]) = Some c.
Proof. unfold last_char. now rewrite rev_app_distr. Qed.
Lemma last_char_nil s : last_char s = None -> s = [].
Proof. unfold last_char. destruct (rev s) eqn:E; [|discriminate]. intros _. apply (f_equal (@rev N)) in E. now rewrite rev_involutive in E. Qed.
Lemma last_char_In s c : last_char s = Some c -> In c s.
Proof. unfold last_char. destruct (rev s) as [|x r] eqn:E; [discriminate|]. intros H. injection H as ->. apply in_rev. rewrite E. now left. Qed.
Lemma bare_snoc s c : ~ In c [32; 10; 9]%N -> bare_end (s ++ [c]).
Proof. intros H. exists c. now rewrite last_char_app. Qed.

Lemma written_bare g maxout d s f : admissible g maxout d s -> written d s f -> f <> [] /\ bare_end f.
Proof.
  intros A W. destruct d as [[|a [|b [|c [|x y]]]]|]; cbn [admissible] in A; try tauto; cbn [written] in W.
  - destruct A as [Hq _]. subst f. split; [discriminate|]. rewrite app_assoc. apply bare_snoc. destruct Hq as [->| ->]; cbn; intuition discriminate.
  - destruct W as (p & -> & _). split; [discriminate|]. change [NL; SC] with ([NL] ++ [SC]) at 2. rewrite !app_assoc. apply bare_snoc. cbn; intuition discriminate.
  - destruct A as (_ & -> & -> & Hq). subst f. split; [discriminate|]. change [c; c; c] with ([c; c] ++ [c]) at 2. rewrite !app_assoc. apply bare_snoc.
    destruct Hq as [->| ->]; cbn; intuition discriminate.
  - subst f. destruct A as (Hne & _ & Hnl & Hnp & _). split; [exact Hne|].
    destruct (last_char s) as [c|] eqn:E; [|apply last_char_nil in E; congruence]. exists c. split; [exact E|].
    apply last_char_In in E. intros [<-|[<-|[<-|[]]]].
    + apply (Hnp 32%N); [cbn; tauto|exact E].
    + exact (Hnl E).
    + apply (Hnp 9%N); [cbn; tauto|exact E].
Qed.
Lemma format_total g maxout req s : exists f, format_string g maxout req s = Ret f /\ f <> [] /\ bare_end f.
Proof.
  destruct (format_written g maxout req s) as (d & f & E & W & Hd). exists f. split; [exact E|].
  apply (written_bare g maxout d s); [|exact W]. rewrite Hd. apply choose_spec.
Qed.

(** The delimiter in front of a value. *)
Lemma write_delim k : bare k -> exists k' z, write delim_args [32%N] k = Ret k' /\ k_out k' = k_out k ++ z /\ blanks_only z
  /\ k_tab k' = k_tab k /\ k_width k' = k_width k /\ (z = [] -> (k_pos k' > k_width k')%Z).
Proof.
  intros (c & El & Hc). unfold write, delim_args. cbn [a_delim a_mustbreak a_canbreak a_startcol a_tab a_newindent a_unindent length andb negb].
  change (1 <? 1) with false. cbv iota zeta. rewrite !andb_false_r. cbn [andb]. cbv iota.
  change (-1 >? 0)%Z with false. cbn [andb]. cbv iota. rewrite ?andb_false_r. cbn [andb orb]. cbv iota.
  rewrite El. assert (cmem c [32; 10; 9]%N = false) as ->.
  { apply not_true_iff_false. intros H. apply existsb_exists in H. destruct H as (x & Hx & E). apply N.eqb_eq in E. subst x. exact (Hc Hx). }
  rewrite ?orb_false_r, ?andb_true_r. cbn [after_break]. change (32 =? nl)%N with false. cbv iota.
  destruct (k_pos k + Z.of_nat 1 >? k_width k)%Z eqn:E.
  - eexists. exists []. split; [reflexivity|]. split; [now rewrite app_nil_r|]. split; [constructor|]. cbn. repeat split. lia.
  - eexists. exists [32%N]. split; [reflexivity|]. split; [reflexivity|]. split; [repeat constructor; now left|]. cbn. repeat split. discriminate.
Qed.

(** Indents and positions. *)
Lemma write_indent a s k k' : write a s k = Ret k' -> exists x,
  k_indent k' = (if a_newindent a then x :: k_indent k
                 else if a_unindent a then match k_indent k with _ :: ((_ :: _) as i) => i | i => i end else k_indent k).
Proof.
  unfold write. destruct (a_delim a && (1 <? length s)); [discriminate|]. cbv zeta.
  set (k0 := if a_mustbreak a then break_line k else k).
  destruct (_ && _ && (length s =? 0)); [discriminate|].
  set (k1 := if _ && _ && _ && a_canbreak a then break_line k0 else k0).
  set (k2 := if _ && _ then set_last (Some 32%N) (set_pos (a_startcol a) _) else k1).
  set (k3 := if _ && a_tab a && _ && _ then _ else k2).
  assert (k_indent k3 = k_indent k) as E3.
  { assert (forall (c : bool) x y, k_indent x = k_indent y -> k_indent (if c then x else y) = k_indent y) as Hc by (intros [] x y; auto).
    transitivity (k_indent k2); [unfold k3; now apply Hc|]. transitivity (k_indent k1); [unfold k2; now apply Hc|].
    transitivity (k_indent k0); [unfold k1; now apply Hc|]. unfold k0. now apply Hc. }
  set (k4 := if a_newindent a then _ else _).
  set (k5 := if a_delim a && _ then k4 else put s k4).
  set (k6 := match after_break s with Some n => _ | None => _ end).
  intros E. injection E as <-.
  assert (k_indent (match s with [] => k6 | _ => set_last (last_char s) k6 end) = k_indent k4) as ->.
  { transitivity (k_indent k6); [now destruct s|]. transitivity (k_indent k5); [unfold k6; now destruct (after_break s)|]. unfold k5. destruct (a_delim a && _); reflexivity. }
  unfold k4. destruct (a_newindent a).
  - destruct (top_indent k3 =? 0)%Z; cbn [set_indent k_indent]; rewrite E3; eexists; reflexivity.
  - exists 0%Z. destruct (a_unindent a); [|exact E3]. rewrite <- E3. destruct (k_indent k3) as [|x [|y l]] eqn:E; cbn [set_indent k_indent]; congruence.
Qed.
Lemma after_break_nl s : after_break (s ++ [10%N]) = Some 1.
Proof. induction s as [|c s IH]; [reflexivity|]. cbn [app after_break]. now rewrite IH. Qed.
Lemma write_pos_nl a s k k' : write a (s ++ [10%N]) k = Ret k' -> k_pos k' = 1%Z.
Proof.
  unfold write. destruct (a_delim a && _); [discriminate|]. cbv zeta. destruct (_ && _ && (length (s ++ [10%N]) =? 0)); [discriminate|].
  intros E. injection E as <-. rewrite after_break_nl. destruct (s ++ [10%N]); reflexivity.
Qed.
Lemma after_break_none s : ~ In 10%N s -> after_break s = None.
Proof.
  induction s as [|c s IH]; intros H; [reflexivity|]. cbn [after_break]. rewrite IH by (intros X; apply H; now right).
  destruct (c =? nl)%N eqn:E; [|reflexivity]. apply N.eqb_eq in E. subst c. exfalso. apply H. now left.
Qed.
Lemma write_name_pos np s k k' : write (WArgs false true false false false false np) s k = Ret k' -> (np <= 0)%Z -> ~ In 10%N s ->
  k_pos k' = (top_indent k + Z.of_nat (length s))%Z.
Proof.
  unfold write. cbn [a_delim a_mustbreak a_canbreak a_startcol a_tab a_newindent a_unindent andb]. cbv iota zeta.
  destruct (_ && _ && (length s =? 0)); [discriminate|]. intros E Hn Hs. injection E as <-. rewrite after_break_none by exact Hs.
  rewrite ?andb_false_r. assert ((np >? 0)%Z = false) as -> by lia. cbn [andb]. rewrite ?andb_false_r. cbn [andb]. now destruct s.
Qed.
Lemma write_empty k : (k_pos k <= k_width k)%Z -> exists k', write bare_args [] k = Ret k' /\ k_out k' = k_out k
  /\ k_tab k' = k_tab k /\ k_width k' = k_width k /\ k_indent k' = k_indent k /\ k_pos k' = k_pos k.
Proof.
  intros H. unfold write, bare_args. cbn [a_delim a_mustbreak a_canbreak a_startcol a_tab a_newindent a_unindent andb length]. cbv iota zeta.
  assert ((k_pos k + Z.of_nat 0 >? k_width k)%Z = false) as -> by lia. cbn [andb orb negb]. cbv iota. change (-1 >? 0)%Z with false. cbn [andb]. cbv iota.
  rewrite ?andb_false_r. cbn [andb]. eexists. split; [reflexivity|]. cbn. rewrite app_nil_r. repeat split. lia.
Qed.

(** The text of a value. *)
Fixpoint prints (g : grammar) (maxout : Z) (req : delim) (v : value) (f : str) : Prop :=
  match v with
  | VStr s => format_string g maxout req s = Ret f
  | VNum _ | VNone => False
  | VList l | VSL l =>
      exists body, f = u "[" ++ body ++ u "]" /\
      (fix go (first : bool) (l : list value) (body : str) : Prop :=
         match l with
         | [] => blanks_only body
         | x :: l' => exists d w fx r, body = d ++ w ++ fx ++ r /\ blanks_only w
             /\ (if first then d = [] else exists w', blanks_only w' /\ d = w' ++ list_delimiter g)
             /\ prints g maxout None x fx /\ go false l' r
         end) true l body
  | VDict d =>
      exists body, f = u "{" ++ body ++ u "}" /\
      (fix go (first : bool) (l : list (str * value)) (body : str) : Prop :=
         match l with
         | [] => blanks_only body
         | (key, x) :: l' => exists d w' w fx r,
             body = d ++ w' ++ ([sq] ++ key ++ [sq; 58%N]) ++ w ++ fx ++ r /\ blanks_only w' /\ blanks_only w
             /\ (if first then d = [] else exists w', blanks_only w' /\ d = w' ++ list_delimiter g)
             /\ prints g maxout None x fx /\ go false l' r
         end) true d body
  end.
Definition prints_list g maxout := fix go (first : bool) (l : list value) (body : str) : Prop :=
         match l with
         | [] => blanks_only body
         | x :: l' => exists d w fx r, body = d ++ w ++ fx ++ r /\ blanks_only w
             /\ (if first then d = [] else exists w', blanks_only w' /\ d = w' ++ list_delimiter g)
             /\ prints g maxout None x fx /\ go false l' r
         end.
Definition prints_table g maxout := fix go (first : bool) (l : list (str * value)) (body : str) : Prop :=
         match l with
         | [] => blanks_only body
         | (key, x) :: l' => exists d w' w fx r,
             body = d ++ w' ++ ([sq] ++ key ++ [sq; 58%N]) ++ w ++ fx ++ r /\ blanks_only w' /\ blanks_only w
             /\ (if first then d = [] else exists w', blanks_only w' /\ d = w' ++ list_delimiter g)
             /\ prints g maxout None x fx /\ go false l' r
         end.
Definition format_elems g maxout := fix go (first : bool) (l : list value) (k : sink) : outcome sink :=
                match l with
                | [] => Ret k
                | x :: l' =>
                    obind (if first then Ret k
                           else write (WArgs false false false false false false (-1)) (list_delimiter g) k) (fun k =>
                    obind (format_value g maxout (negb first) no_hint x k) (fun k => go false l' k))
                end.
Definition format_pairs g maxout := fix go (first : bool) (l : list (str * value)) (k : sink) : outcome sink :=
                match l with
                | [] => Ret k
                | (key, x) :: l' =>
                    obind (if first then Ret k else write plain_args (list_delimiter g) k) (fun k =>
                    obind (write (with_col (-1)) ([sq] ++ key ++ [sq; 58%N]) k) (fun k =>
                    obind (format_value g maxout false no_hint x k) (fun k => go false l' k)))
                end.

(** One piece of text written by [write]. *)
Lemma write_text a s k : a_delim a = false -> s <> [] -> exists k' w, write a s k = Ret k' /\ k_out k' = k_out k ++ w ++ s
  /\ blanks_only w /\ k_tab k' = k_tab k /\ k_width k' = k_width k /\ k_last k' = last_char s
  /\ (a_newindent a = false -> a_unindent a = false -> k_indent k' = k_indent k)
  /\ (a_newindent a = true -> exists x, k_indent k' = x :: k_indent k)
  /\ (a_newindent a = false -> a_unindent a = true -> forall x l, k_indent k = x :: l -> l <> [] -> k_indent k' = l)
  /\ (a_mustbreak a = true -> exists w', w = 10%N :: w')
  /\ ((0 < k_tab k)%Z -> a_tab a = true -> (a_startcol a <> 0)%Z -> w <> [])
  /\ (a_canbreak a = true -> first_is nl s = false -> (k_pos k + Z.of_nat (length s) > k_width k)%Z -> w <> []).
Proof.
  intros Hd Hs. destruct (write_total a s k Hs (or_introl Hd)) as [k' E].
  destruct (write_spec _ _ _ _ E) as (w & t & E1 & B & Ht & T & W & M & P & L & O & _).
  destruct Ht as [->|[Ht _]]; [|congruence]. exists k', w. destruct (write_indent _ _ _ _ E) as [x Ex].
  split; [exact E|]. split; [exact E1|]. split; [exact B|]. split; [exact T|]. split; [exact W|]. split; [now apply L|].
  split; [intros H1 H2; now rewrite H1, H2 in Ex|]. split; [intros H1; rewrite H1 in Ex; eauto|].
  split; [intros H1 H2 y l H3 H4; rewrite H1, H2, H3 in Ex; destruct l; [congruence|exact Ex]|].
  split; [exact M|]. split; [exact P|].
  intros H1 H2 H3. destruct (a_mustbreak a) eqn:Em.
  - destruct (M eq_refl) as [w' ->]. discriminate.
  - now apply O.
Qed.
Lemma delimiter_nonempty g : list_delimiter g <> [].
Proof. destruct g; discriminate. Qed.
Lemma bare_last k s : k_last k = last_char s -> bare_end s -> bare k.
Proof. intros E (c & E1 & H). exists c. split; [congruence|exact H]. Qed.

Section Print.
Variables (g : grammar) (maxout : Z).

Definition value_ok (v : value) : Prop := forall cp h k, exists k' w f,
  format_value g maxout cp h v k = Ret k' /\ k_out k' = k_out k ++ w ++ f /\ blanks_only w /\ prints g maxout (hint_delim h) v f
  /\ k_width k' = k_width k /\ bare k' /\ (k_indent k <> [] -> k_indent k' = k_indent k)
  /\ k_tab k' = (if compound v then 0%Z else k_tab k)
  /\ (compound v = false -> (0 < k_tab k)%Z -> (hint_col h <> 0)%Z -> w <> [])
  /\ ((k_pos k > k_width k)%Z -> match v with VDict _ => cp = true | _ => True end -> w <> [] \/ first_is nl f = true).

Lemma elems_ok l : Forall value_ok l -> forall first k, exists k' y,
  format_elems g maxout first l k = Ret k' /\ k_out k' = k_out k ++ y /\ prints_list g maxout first l y /\ k_width k' = k_width k
  /\ (k_tab k = 0%Z -> k_tab k' = 0%Z) /\ (k_indent k <> [] -> k_indent k' = k_indent k).
Proof using.
  induction 1 as [|x l Hx Hl IH]; intros first k; cbn [format_elems prints_list].
  - exists k, []. rewrite app_nil_r. repeat split; auto. constructor.
  - assert (exists k0 d, (if first then Ret k else write (WArgs false false false false false false (-1)) (list_delimiter g) k) = Ret k0
        /\ k_out k0 = k_out k ++ d /\ k_width k0 = k_width k /\ k_tab k0 = k_tab k
        /\ (if first then d = [] else exists w', blanks_only w' /\ d = w' ++ list_delimiter g) /\ k_indent k0 = k_indent k) as (k0 & d & E0 & O0 & W0 & T0 & D0 & I0).
    { destruct first.
      - exists k, []. rewrite app_nil_r. repeat split.
      - destruct (write_text (WArgs false false false false false false (-1)) (list_delimiter g) k eq_refl (delimiter_nonempty g))
          as (k0 & w & E & O & B & T & W & _ & I & _). exists k0, (w ++ list_delimiter g). repeat split; auto. exists w. auto. }
    rewrite E0. cbn [obind]. destruct (Hx (negb first) no_hint k0) as (k1 & w & f & E1 & O1 & B1 & P1 & W1 & _ & I1 & T1 & _).
    rewrite E1. cbn [obind]. destruct (IH false k1) as (k2 & y & E2 & O2 & P2 & W2 & T2 & I2).
    rewrite E2. exists k2, (d ++ w ++ f ++ y). split; [reflexivity|].
    split; [rewrite O2, O1, O0, <- !app_assoc; reflexivity|]. split; [exists d, w, f, y; auto 10|]. split; [congruence|].
    split; [|intros Hi; rewrite I2, I1 by (rewrite ?I1, ?I0; congruence || (rewrite I0; exact Hi)); exact I0]. intros Hk. apply T2. rewrite T1. destruct (compound x); congruence.
Qed.
Lemma pairs_ok l : Forall (fun kv => value_ok (snd kv)) l -> forall first k, exists k' y,
  format_pairs g maxout first l k = Ret k' /\ k_out k' = k_out k ++ y /\ prints_table g maxout first l y /\ k_width k' = k_width k
  /\ (k_tab k = 0%Z -> k_tab k' = 0%Z) /\ (k_indent k <> [] -> k_indent k' = k_indent k).
Proof using.
  induction 1 as [|[key x] l Hx Hl IH]; intros first k; cbn [format_pairs prints_table].
  - exists k, []. rewrite app_nil_r. repeat split; auto. constructor.
  - assert (exists k0 d, (if first then Ret k else write plain_args (list_delimiter g) k) = Ret k0
        /\ k_out k0 = k_out k ++ d /\ k_width k0 = k_width k /\ k_tab k0 = k_tab k
        /\ (if first then d = [] else exists w', blanks_only w' /\ d = w' ++ list_delimiter g) /\ k_indent k0 = k_indent k) as (k0 & d & E0 & O0 & W0 & T0 & D0 & I0).
    { destruct first.
      - exists k, []. rewrite app_nil_r. repeat split.
      - destruct (write_text plain_args (list_delimiter g) k eq_refl (delimiter_nonempty g))
          as (k0 & w & E & O & B & T & W & _ & I & _). exists k0, (w ++ list_delimiter g). repeat split; auto. exists w. auto. }
    rewrite E0. cbn [obind].
    destruct (write_text (with_col (-1)) ([sq] ++ key ++ [sq; 58%N]) k0 eq_refl ltac:(discriminate)) as (k3 & w3 & E3 & O3 & B3 & T3 & W3 & _ & I3 & _).
    rewrite E3. cbn [obind]. destruct (Hx false no_hint k3) as (k1 & w & f & E1 & O1 & B1 & P1 & W1 & _ & I1 & T1 & _).
    cbn [snd] in E1, P1, T1. rewrite E1. cbn [obind]. destruct (IH false k1) as (k2 & y & E2 & O2 & P2 & W2 & T2 & I2).
    rewrite E2. exists k2, (d ++ w3 ++ ([sq] ++ key ++ [sq; 58%N]) ++ w ++ f ++ y). split; [reflexivity|].
    split; [rewrite O2, O1, O3, O0, <- !app_assoc; reflexivity|]. split; [exists d, w3, w, f, y; auto 12|]. split; [congruence|].
    specialize (I3 eq_refl eq_refl).
    split; [|intros Hi; rewrite I2, I1 by (rewrite ?I1, ?I3, ?I0; congruence || (rewrite I3, I0; exact Hi)); now rewrite I3]. intros Hk. apply T2. rewrite T1. destruct (compound x); congruence.
Qed.

Lemma format_value_list l cp h k : (exists v, (v = VList l \/ v = VSL l) /\ format_value g maxout cp h v k =
   obind (write (WArgs true cp true true false false (hint_col h)) (u "[") (set_tab 0 k)) (fun k1 =>
   obind (format_elems g maxout true l k1) (fun k2 => write (WArgs false false true false true false (-1)) (u "]") k2))).
Proof using. exists (VList l). split; [now left|reflexivity]. Qed.
Lemma list_case l cp h k : Forall value_ok l -> exists k' w f,
  obind (write (WArgs true cp true true false false (hint_col h)) (u "[") (set_tab 0 k)) (fun k1 =>
   obind (format_elems g maxout true l k1) (fun k2 => write (WArgs false false true false true false (-1)) (u "]") k2)) = Ret k'
  /\ k_out k' = k_out k ++ w ++ f /\ blanks_only w
  /\ (exists body, f = u "[" ++ body ++ u "]" /\ prints_list g maxout true l body)
  /\ k_width k' = k_width k /\ bare k' /\ (k_indent k <> [] -> k_indent k' = k_indent k) /\ k_tab k' = 0%Z
  /\ ((k_pos k > k_width k)%Z -> w <> []).
Proof using.
  intros Hl. destruct (write_text (WArgs true cp true true false false (hint_col h)) (u "[") (set_tab 0 k) eq_refl ltac:(discriminate))
    as (k1 & w & E1 & O1 & B1 & T1 & W1 & _ & _ & J1 & _ & M1 & _ & V1).
  rewrite E1. cbn [obind]. destruct (elems_ok l Hl true k1) as (k2 & y & E2 & O2 & P2 & W2 & T2 & I2). rewrite E2. cbn [obind].
  destruct (write_text (WArgs false false true false true false (-1)) (u "]") k2 eq_refl ltac:(discriminate))
    as (k3 & w3 & E3 & O3 & B3 & T3 & W3 & L3 & _ & _ & J3 & _).
  exists k3, w, (u "[" ++ (y ++ w3) ++ u "]"). split; [exact E3|].
  split; [rewrite O3, O2, O1; cbn [set_tab k_out]; now rewrite <- !app_assoc|]. split; [exact B1|].
  split. { exists (y ++ w3). split; [reflexivity|]. clear -P2 B3. revert P2. generalize true as first.
    revert y. induction l as [|x l IH]; intros y first; cbn [prints_list].
    - intros H. now apply blanks_app.
    - intros (d & w & fx & r & -> & Hw & Hd & Hx & Hr). exists d, w, fx, (r ++ w3). split; [now rewrite <- !app_assoc|]. auto. }
  split; [cbn in W1; congruence|]. split.
  { eapply bare_last; [exact L3|]. exists 93%N. split; [reflexivity|]. cbn. intuition discriminate. }
  split. { intros Hi. destruct (J1 eq_refl) as [x Ex]. cbn [set_tab k_indent] in Ex. apply (J3 eq_refl eq_refl x); [|exact Hi]. rewrite I2; [exact Ex|rewrite Ex; discriminate]. }
  cbn [set_tab k_tab] in T1. split; [rewrite T3; now apply T2|].
  intros H. apply V1; [reflexivity|reflexivity|]. cbn. lia.
Qed.
Lemma table_case l cp h k : Forall (fun kv => value_ok (snd kv)) l -> exists k' w f,
  obind (write (WArgs false cp true true false false (hint_col h)) (u "{") (set_tab 0 k)) (fun k1 =>
   obind (format_pairs g maxout true l k1) (fun k2 => write (WArgs false false true false true false (-1)) (u "}") k2)) = Ret k'
  /\ k_out k' = k_out k ++ w ++ f /\ blanks_only w
  /\ (exists body, f = u "{" ++ body ++ u "}" /\ prints_table g maxout true l body)
  /\ k_width k' = k_width k /\ bare k' /\ (k_indent k <> [] -> k_indent k' = k_indent k) /\ k_tab k' = 0%Z
  /\ (cp = true -> w <> []).
Proof using.
  intros Hl. destruct (write_text (WArgs false cp true true false false (hint_col h)) (u "{") (set_tab 0 k) eq_refl ltac:(discriminate))
    as (k1 & w & E1 & O1 & B1 & T1 & W1 & _ & _ & J1 & _ & M1 & _ & V1).
  rewrite E1. cbn [obind]. destruct (pairs_ok l Hl true k1) as (k2 & y & E2 & O2 & P2 & W2 & T2 & I2). rewrite E2. cbn [obind].
  destruct (write_text (WArgs false false true false true false (-1)) (u "}") k2 eq_refl ltac:(discriminate))
    as (k3 & w3 & E3 & O3 & B3 & T3 & W3 & L3 & _ & _ & J3 & _).
  exists k3, w, (u "{" ++ (y ++ w3) ++ u "}"). split; [exact E3|].
  split; [rewrite O3, O2, O1; cbn [set_tab k_out]; now rewrite <- !app_assoc|]. split; [exact B1|].
  split. { exists (y ++ w3). split; [reflexivity|]. clear -P2 B3. revert P2. generalize true as first.
    revert y. induction l as [|[key x] l IH]; intros y first; cbn [prints_table].
    - intros H. now apply blanks_app.
    - intros (d & w' & w & fx & r & -> & Hw' & Hw & Hd & Hx & Hr). exists d, w', w, fx, (r ++ w3). split; [now rewrite <- !app_assoc|]. auto 10. }
  split; [cbn in W1; congruence|]. split.
  { eapply bare_last; [exact L3|]. exists 125%N. split; [reflexivity|]. cbn. intuition discriminate. }
  split. { intros Hi. destruct (J1 eq_refl) as [x Ex]. cbn [set_tab k_indent] in Ex. apply (J3 eq_refl eq_refl x); [|exact Hi]. rewrite I2; [exact Ex|rewrite Ex; discriminate]. }
  cbn [set_tab k_tab] in T1. split; [rewrite T3; now apply T2|].
  intros ->. destruct (M1 eq_refl) as [w' ->]. discriminate.
Qed.

Lemma value_prints v : textual v -> value_ok v.
Proof using.
  induction v as [s|s| |l IH|l IH|d IH] using value_rect'; intros Ht cp h k; try (inversion Ht; fail).
  - destruct (format_total g maxout (hint_delim h) s) as (f & Ef & Hne & Hb).
    destruct (write_text (with_col (hint_col h)) f k eq_refl Hne) as (k' & w & E & O & B & T & W & L & I & _ & _ & _ & P & V).
    exists k', w, f. cbn [format_value compound]. rewrite Ef. cbn [obind]. split; [exact E|]. split; [exact O|]. split; [exact B|].
    split; [exact Ef|]. split; [exact W|]. split; [eapply bare_last; eauto|]. split; [intros _; now apply I|]. split; [exact T|].
    split; [intros _ H1 H2; now apply P|]. intros H _. destruct (first_is nl f) eqn:En; [now right|left]. apply V; [reflexivity|reflexivity|lia].
  - assert (Forall value_ok l) as Hl.
    { inversion Ht as [|l' Hf| |]; subst. rewrite Forall_forall in *. intros x Hx. apply IH; auto. }
    destruct (list_case l cp h k Hl) as (k' & w & f & E & O & B & P & W & Hb & I & T & V).
    exists k', w, f. split; [exact E|]. split; [exact O|]. split; [exact B|]. split; [exact P|]. split; [exact W|]. split; [exact Hb|]. split; [exact I|].
    split; [exact T|]. split; [discriminate|]. intros H _. left. now apply V.
  - assert (Forall value_ok l) as Hl.
    { inversion Ht as [| |l' Hf|]; subst. rewrite Forall_forall in *. intros x Hx. apply IH; auto. }
    destruct (list_case l cp h k Hl) as (k' & w & f & E & O & B & P & W & Hb & I & T & V).
    exists k', w, f. split; [exact E|]. split; [exact O|]. split; [exact B|]. split; [exact P|]. split; [exact W|]. split; [exact Hb|]. split; [exact I|].
    split; [exact T|]. split; [discriminate|]. intros H _. left. now apply V.
  - assert (Forall (fun kv => value_ok (snd kv)) d) as Hl.
    { inversion Ht as [| | |l' Hf]; subst. rewrite Forall_forall in *. intros x Hx. apply IH; auto. }
    destruct (table_case d cp h k Hl) as (k' & w & f & E & O & B & P & W & Hb & I & T & V).
    exists k', w, f. split; [exact E|]. split; [exact O|]. split; [exact B|]. split; [exact P|]. split; [exact W|]. split; [exact Hb|]. split; [exact I|].
    split; [exact T|]. split; [discriminate|]. intros H ->. left. now apply V.
Qed.
End Print.
