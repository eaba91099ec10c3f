(** The texts of expressions are in one line. *)
From Coq Require Import String Ascii List NArith PeanoNat Bool Lia.
From Verif Require Import PyBase PyFacts DrelModel LayoutSpec LayoutProofs.
From Verif Require DrelProofs5.
Import ListNotations.
Open Scope string_scope. Open Scope list_scope. Open Scope nat_scope.

Definition Runs (m : tr) (P : str -> Prop) : Prop := forall st s st', flat_sp st -> m st = Ret (s, st') -> flat_sp st' /\ P s.
Definition keeps (g : sp -> sp) : Prop := forall st, flat_sp st -> flat_sp (g st).
Lemma Runs_ret x (P : str -> Prop) : P x -> Runs (tret x) P.
Proof. intros H st s st' I E. injection E as <- <-. auto. Qed.
Lemma Runs_raise x P : Runs (traise x) P.
Proof. intros st s st' I E. discriminate E. Qed.
Lemma Runs_bind m f P Q : Runs m P -> (forall x, P x -> Runs (f x) Q) -> Runs (tbind m f) Q.
Proof.
  intros A B st s st' I E. unfold tbind in E. destruct (m st) as [[x st1]|] eqn:Em; [|discriminate E].
  destruct (A _ _ _ I Em) as [I1 Px]. exact (B x Px _ _ _ I1 E).
Qed.
Lemma Runs_weak m (P Q : str -> Prop) : Runs m P -> (forall x, P x -> Q x) -> Runs m Q.
Proof. intros A B st s st' I E. destruct (A _ _ _ I E). auto. Qed.
Lemma Runs_mod g k P : keeps g -> Runs k P -> Runs (tmod g k) P.
Proof. intros G A st s st' I E. exact (A _ _ _ (G _ I) E). Qed.
Lemma Runs_at (f : sp -> tr) (g : sp -> sp) P : keeps g -> (forall st, Runs (f st) P) -> Runs (fun st => f st (g st)) P.
Proof. intros G A st s st' I E. exact (A st _ _ _ (G _ I) E). Qed.
Lemma keeps_same g : (forall st, s_ids (g st) = s_ids st) -> (forall st, s_with (g st) = s_with st) -> keeps g.
Proof. intros A B st [I W]. split; [rewrite A|rewrite B]; assumption. Qed.
Ltac kept := apply keeps_same; intros; reflexivity.
Definition commaed (before : str) (xs : list str) : str := concat (map (fun x => before ++ x ++ u ",") xs).
Lemma Runs_commas {A} (f : A -> tr) (P : str -> Prop) before l : Forall (fun a => Runs (f a) P) l -> forall out,
  Runs (commas f before out l) (fun s => exists xs, Forall P xs /\ length xs = length l /\ s = out ++ commaed before xs).
Proof.
  induction 1 as [|a l H F IH]; intros out; cbn [commas].
  - apply Runs_ret. exists []. repeat split; [constructor|]. rewrite app_nil_r. reflexivity.
  - eapply Runs_bind; [exact H|]. intros x Px. eapply Runs_weak; [apply IH|]. intros s (xs & Fx & L & ->). exists (x :: xs).
    repeat split; [constructor; assumption|cbn [length]; congruence|]. unfold sapp, commaed. cbn [concat map]. rewrite app_nil_r, <- !app_assoc. reflexivity.
Qed.
Lemma commaed_flat before xs : flat before = true -> Forall (fun x => flat x = true) xs -> flat (commaed before xs) = true.
Proof. intros B F. apply flat_concat. rewrite Forall_forall in *. intros y I. apply in_map_iff in I as (x & <- & I). rewrite !flat_app, B, (F x I). reflexivity. Qed.
Lemma Wds_flat xs : Forall Wd xs -> Forall (fun x => flat x = true) xs.
Proof. apply Forall_impl. intros x. apply Wd_flat. Qed.
Lemma drop_app a b : b <> [] -> drop_last (a ++ b) = a ++ drop_last b.
Proof. apply removelast_app. Qed.
Lemma commaed_ne before xs : xs <> [] -> commaed before xs <> [].
Proof. destruct xs as [|x xs]; [congruence|]. intros _. unfold commaed. cbn [map concat]. destruct before; [destruct x; discriminate|discriminate]. Qed.
(** The texts joined: the first starts it and the last ends it. *)
Lemma joined_Wd xs : xs <> [] -> Forall Wd xs -> Wd (drop_last (commaed [] xs)).
Proof.
  intros N F. induction F as [|x xs W F IH]; [congruence|]. change (commaed [] (x :: xs)) with ((x ++ u ",") ++ commaed [] xs).
  destruct xs as [|y xs].
  - change (commaed [] []) with (@nil BinNums.N). rewrite app_nil_r. rewrite drop_app by discriminate. cbn [drop_last removelast u]. rewrite app_nil_r. exact W.
  - rewrite drop_app by (apply commaed_ne; discriminate). specialize (IH ltac:(discriminate)). destruct W as [W1 W2], IH as [I1 I2].
    rewrite <- app_assoc. split; [apply St_app; [exact W1|]; rewrite flat_app, (En_flat _ I2); reflexivity|].
    apply En_app; [apply St_flat, W1|]. apply En_app; [reflexivity|exact I2].
Qed.
Lemma en s : flat s = true -> s <> [] -> last s 0%N <> 58%N -> En s. Proof. intros. repeat split; assumption. Qed.
Lemma st s : flat s = true -> s <> [] -> hd 0%N s <> 32%N -> St s. Proof. intros. repeat split; assumption. Qed.
Ltac closed := vm_compute; repeat split; let X := fresh in intros X; discriminate X.
Ltac flats := rewrite ?flat_app; repeat match goal with |- (_ && _)%bool = true => apply andb_true_iff; split end; auto using Wd_flat, St_flat, En_flat, flat_lower, dec_flat.

Lemma ret_inj (a c : str) (b d : sp) : Ret (a, b) = Ret (c, d) -> a = c /\ b = d.
Proof. intros E. injection E as -> ->. auto. Qed.

Section Expr.
  Context (e : env) (FE : flat_env e).
  Notation T := (traverse e).
  Definition texpr (c : cx) : Prop := flat_cx c = true -> Runs (T (bx c)) Wd.

  Lemma all_run l : Forall texpr l -> forallb flat_cx l = true -> Forall (fun a => Runs (T a) Wd) (map (fun x => AExpr (bx x)) l).
  Proof.
    induction 1 as [|c l H F IH]; intros S; cbn [map]; [constructor|]. cbn [forallb] in S. apply andb_true_iff in S as [S1 S2].
    constructor; [exact (H S1)|exact (IH S2)].
  Qed.
  Lemma depends_keep l : keeps (fun st => fold_left (fun s k => depend k s) l st).
  Proof. induction l as [|a l IH]; intros st I; [exact I|]. cbn [fold_left]. apply IH. destruct I. split; assumption. Qed.
  Lemma keyed_run cat key : Runs key Wd -> Runs (keyed e cat key) Wd.
  Proof.
    intros K st s st' I E. unfold keyed in E. destruct (dget str_eqb cat (e_loopable e)) as [keys|] eqn:G; [|discriminate E].
    apply (dget_In str_eqb str_eqb_spec) in G. pose proof (f_cats _ FE _ _ G) as FC. cbv zeta in E.
    refine (Runs_bind key _ Wd Wd K _ _ s st' (depends_keep _ _ I) E). intros x Wx. apply Runs_mod; [kept|]. apply Runs_ret.
    unfold semantic_packet, sapp, squote. cbn [concat]. rewrite app_nil_r. split.
    - apply St_app; [closed|]. flats.
    - repeat (apply En_app; [flats|]). closed.
  Qed.
  Lemma use_with_keep name st : flat_sp st -> flat_sp (snd (use_with name st)) /\ Wd (fst (use_with name st)).
  Proof.
    intros [A B]. unfold use_with. destruct (dget str_eqb name (s_with st)) as [[[v k] o]|] eqn:G.
    - cbn [fst snd]. split; [split; assumption|]. apply (dget_In str_eqb str_eqb_spec) in G. apply word_Wd. eapply B, G.
    - cbn [fst snd]. split; [|apply with_word]. split; [exact A|]. cbn [set_with s_with]. intros a v k o I. apply in_app_or in I as [I|[I|[]]]; [eapply B, I|].
      injection I as _ <- _ _. apply word_Wd, with_word.
  Qed.
  Lemma same_sp st st' : flat_sp st -> s_ids st' = s_ids st -> s_with st' = s_with st -> flat_sp st'.
  Proof. intros [A B] C D. split; [rewrite C|rewrite D]; assumption. Qed.
  Lemma target_Wd : Wd (u "__dreltarget"). Proof. closed. Qed.
  Lemma access_Wd x : flat x = true -> Wd (data_access x).
  Proof. intros F. unfold data_access, sapp. cbn [concat]. rewrite app_nil_r. split; [apply St_app; [closed|flats]|]. repeat (apply En_app; [flats|]). closed. Qed.
  Lemma element_Wd x i : Wd x -> flat i = true -> Wd (sapp [x; u "["; i; u "]"]).
  Proof. intros W F. unfold sapp. cbn [concat]. rewrite app_nil_r. split; [apply St_app; [apply W|flats]|]. repeat (apply En_app; [flats|]). closed. Qed.
  Lemma attribute_run atom primary att : Wd primary -> flat att = true -> Runs (attribute e atom primary att) Wd.
  Proof.
    intros W F st s st' I E. unfold attribute in E. destruct (dget str_eqb primary (s_ids st)) as [[[cat index] looping]|] eqn:G.
    - apply (dget_In str_eqb str_eqb_spec) in G. pose proof (f_ids _ I _ _ _ _ G) as FI.
      destruct (e_name e (lower cat) (lower att)) as [nm|] eqn:EN; [|discriminate E]. cbn [obind] in E. apply (f_name _ FE) in EN.
      unfold target in E. destruct (e_target e) as [t|]; [|discriminate E]. cbn [obind] in E.
      destruct (str_eqb (lower nm) (lower t)); [apply ret_inj in E as [<- <-]; split; [apply (same_sp st); auto|apply target_Wd]|].
      destruct (looping || _)%bool.
      + apply ret_inj in E as [<- <-]. split; [apply (same_sp st); auto|]. assert (D : Wd (data_access (dquote (lower nm)))) by (apply access_Wd; unfold dquote; flats). destruct index; [exact D|apply element_Wd; assumption].
      + destruct (use_with_keep (lower nm) st I) as [K1 K2]. destruct (use_with (lower nm) st) as [v st1]. cbn [fst snd] in *. apply ret_inj in E as [<- <-].
        split; [apply (same_sp st1); auto|exact K2].
    - destruct (if atom then match primary with [] => Raise IndexErr | c :: _ => Ret (N.eqb c 95) end else Ret false) as [[|]|]; [| |discriminate E].
      + destruct (e_name e primary att) as [nm|] eqn:EN; [|discriminate E]. cbn [obind] in E. apply (f_name _ FE) in EN.
        unfold target in E. destruct (e_target e) as [t|]; [|discriminate E]. cbn [obind] in E.
        destruct (str_eqb (lower t) (lower nm)); apply ret_inj in E as [<- <-]; (split; [apply (same_sp st); auto|]); [apply target_Wd|].
        apply access_Wd. unfold squote. flats.
      + assert (X : exists nm st1, flat nm = true /\ s_ids st1 = s_ids st /\ s_with st1 = s_with st /\ s = sapp [u "getattr("; primary; u ",'"; nm; u "')"] /\ st' = set_sub [] st1).
        { destruct (dget str_eqb primary (s_packets st)) as [c2|].
          - destruct (e_name e c2 att) as [nm|] eqn:EN; [|discriminate E]. apply ret_inj in E as [<- <-]. apply (f_name _ FE) in EN. exists nm, (depend nm st). auto.
          - destruct (s_sub st) as [|c2 r]; [apply ret_inj in E as [<- <-]; exists att, st; auto|].
            destruct (e_name e (c2 :: r) att) as [nm|] eqn:EN; [|discriminate E]. apply ret_inj in E as [<- <-]. apply (f_name _ FE) in EN. exists nm, (depend nm st). auto. }
        destruct X as (nm & st1 & FN & A & B & -> & ->). split; [apply (same_sp st); [exact I|exact A|exact B]|].
        unfold sapp. cbn [concat]. rewrite app_nil_r. split; [apply St_app; [closed|flats]|]. repeat (apply En_app; [flats|]). closed.
  Qed.
  (** Functions *)
  Lemma fn_ok f : Wd f -> flat (fst (fst (function_name f))) = true /\ St (fst (fst (function_name f)) ++ u "(") /\ flat (snd (fst (function_name f))) = true
    /\ match snd (function_name f) with None => True | Some p => En (u ")" ++ p) end.
  Proof.
    intros W. unfold function_name. destruct (dget str_eqb (lower f) builtins) as [x|] eqn:G.
    - apply (dget_In str_eqb str_eqb_spec) in G. cbn [fst snd]. revert G. generalize (lower f). clear. intros t G. unfold builtins in G. cbn [In] in G.
      repeat (destruct G as [G|G]; [injection G as _ <-; closed|]). destruct G.
    - assert (D : forall l (g : str -> str * str * option str) r (Q : str * str * option str -> Prop),
         (forall t, In t l -> Q (g t)) -> Q r -> Q (if existsb (str_eqb (lower f)) l then g (lower f) else r)).
      { intros l g r Q A B. destruct (existsb _ l) eqn:X; [|exact B]. apply existsb_exists in X as (t & I & X). destruct (str_eqb_spec (lower f) t); [|discriminate X]. subst t. auto. }
      set (Q := fun fn : str * str * option str => flat (fst (fst fn)) = true /\ St (fst (fst fn) ++ u "(") /\ flat (snd (fst fn)) = true /\ match snd fn with None => True | Some p => En (u ")" ++ p) end).
      match goal with |- context [if existsb _ _ then _ else _] => idtac end.
      cbv zeta.
      match goal with |- flat (fst (fst ?x)) = true /\ _ => change (Q x) end.
      apply (D _ (fun t => (u "math." ++ drop_last t, u "math.radians(", Some (u ")")))). { intros t I. cbn [In] in I. repeat (destruct I as [<-|I]; [closed|]). destruct I. }
      apply (D _ (fun t => (u "math.degrees(math." ++ drop_last t, [], Some (u ")")))). { intros t I. cbn [In] in I. repeat (destruct I as [<-|I]; [closed|]). destruct I. }
      apply (D _ (fun t => (u "divmod", [], Some (u "[1]")))). { intros t I. closed. }
      apply (D _ (fun t => ([], [], Some (u ".upper()")))). { intros t I. closed. }
      apply (D _ (fun t => ([], [], Some (u ".T")))). { intros t I. closed. }
      apply (D _ (fun t => (u "cmath.exp", u "1j*(", Some (u ")")))). { intros t I. closed. }
      apply (D _ (fun t => ([], [], Some (u "." ++ t)))). { intros t I. cbn [In] in I. repeat (destruct I as [<-|I]; [closed|]). destruct I. }
      apply (D _ (fun t => (u "numpy.matrix", [], Some (u ".astype('float64')")))). { intros t I. closed. }
      apply (D _ (fun t => ([], [], Some (u ".sort()")))). { intros t I. closed. }
      split; [apply Wd_flat, W|]. split; [apply St_app; [apply W|reflexivity]|]. split; [reflexivity|exact I].
  Qed.
  Lemma call_run f l : Wd f -> Forall (fun a => Runs (T a) Wd) l -> Runs (T (ACall f l)) Wd.
  Proof.
    intros W F. cbn [traverse]. destruct (str_eqb f (u "Current_Row")); [apply Runs_mod; [kept|]; apply Runs_ret; closed|].
    cbv zeta. eapply Runs_bind; [apply Runs_commas; exact F|]. intros s (xs & FX & _ & ->). apply Runs_ret.
    destruct (fn_ok f W) as (A & B & C & D). destruct (function_name f) as [[fn pre] post]. cbn [fst snd] in *.
    pose proof (commaed_flat pre xs C (Wds_flat _ FX)) as K.
    set (many := Nat.ltb 1 (length l)). unfold call_open, call_close. cbn [fst snd].
    set (br := if (str_eqb fn (u "list") && many)%bool then u "[" else []).
    assert (FB : flat br = true) by (unfold br; destruct (_ && _)%bool; reflexivity).
    assert (E : sapp [fn; u "( "; br] ++ commaed pre xs = (fn ++ u "(") ++ (u " " ++ br ++ commaed pre xs)).
    { unfold sapp. cbn [concat]. rewrite app_nil_r, <- !app_assoc. reflexivity. }
    rewrite E. destruct post as [p|].
    - rewrite drop_app by discriminate.
      assert (FD : flat (drop_last (u " " ++ br ++ commaed pre xs)) = true) by (apply flat_removelast; flats).
      set (rest := drop_last (u " " ++ br ++ commaed pre xs)) in *.
      assert (X : exists tail, flat tail = true /\ sapp [if (str_eqb fn (u "list") && many)%bool then ((fn ++ u "(") ++ rest) ++ u "]" else (fn ++ u "(") ++ rest; u ")"; p] = (fn ++ u "(") ++ tail ++ (u ")" ++ p)).
      { unfold sapp. cbn [concat]. rewrite app_nil_r. destruct (_ && _)%bool; [exists (rest ++ u "]")|exists rest]; (split; [flats|]); rewrite <- !app_assoc; reflexivity. }
      destruct X as (tail & FT & ->). pose proof (En_flat _ D) as DF. split; [apply St_app; [exact B|flats]|]. apply En_app; [apply St_flat, B|]. apply En_app; [exact FT|exact D].
    - rewrite <- app_assoc. split; [apply St_app; [exact B|flats]|]. apply En_app; [apply St_flat, B|]. apply En_app; [flats|closed].
  Qed.
  (** Subscripts *)
  Lemma slice_run l : Forall (fun x => Runs (slice_element T x) Wd) l -> Runs (one_slice T (SlL l)) (fun s => flat s = true).
  Proof.
    intros F. cbn [one_slice]. destruct F as [|x l H F]; [apply Runs_raise|]. eapply Runs_bind; [exact H|]. intros t W.
    destruct F as [|y l H2 F]; [apply Runs_ret; flats|]. eapply Runs_bind; [exact H2|]. intros t2 W2.
    assert (R2 : Runs (tret (sapp [t; u ":"; t2])) (fun s => flat s = true)) by (apply Runs_ret; unfold sapp; cbn [concat]; flats).
    destruct F as [|z l H3 F]; [exact R2|]. destruct F; [|exact R2]. eapply Runs_bind; [exact H3|]. intros t3 W3. apply Runs_ret. unfold sapp; cbn [concat]; flats.
  Qed.
  Definition el (o : option cx) : option ael := option_map (fun x => ElN (AExpr (bx x))) o.
  Lemma el_run a b c : DrelProofs5.opt texpr a -> DrelProofs5.opt texpr b -> DrelProofs5.opt texpr c ->
    each_opt flat_cx a = true -> each_opt flat_cx b = true -> each_opt flat_cx c = true ->
    Forall (fun x => Runs (slice_element T x) Wd) (proper_slice (el a) (el b) (el c)).
  Proof.
    intros Ha Hb Hc A B C. assert (Z : Runs (slice_element T ElZero) Wd) by apply Runs_raise.
    assert (O : forall o, DrelProofs5.opt texpr o -> each_opt flat_cx o = true -> match el o with Some x => Runs (slice_element T x) Wd | None => True end).
    { intros [o|] H S; [|exact I]. exact (H S). }
    pose proof (O a Ha A) as Ra. pose proof (O b Hb B) as Rb. pose proof (O c Hc C) as Rc.
    destruct (el a), (el b), (el c); cbn [proper_slice short_slice app]; repeat (constructor; [assumption|]); constructor.
  Qed.
  Lemma brackets_run p (l : list asl) : Runs (T p) Wd -> Forall (fun a => Runs (one_slice T a) (fun s => flat s = true)) l -> Runs (T (ASlice p l)) Wd.
  Proof.
    intros P F. cbn [traverse]. eapply Runs_bind; [exact P|]. intros s W. eapply Runs_bind; [apply Runs_commas; exact F|]. intros s2 (xs & FX & _ & ->).
    apply Runs_ret. destruct W as [W1 W2]. pose proof (commaed_flat [] xs eq_refl FX) as K.
    assert (FR : flat (drop_last (u "[" ++ commaed [] xs)) = true) by (apply flat_removelast; flats).
    rewrite <- app_assoc, drop_app by discriminate. rewrite <- app_assoc. split; [apply St_app; [exact W1|flats]|].
    apply En_app; [apply St_flat, W1|]. apply En_app; [exact FR|closed].
  Qed.
  Lemma math_run op a b : Wd a -> Wd b -> Runs (mathop_text op a b) Wd.
  Proof.
    intros [A1 A2] [B1 B2]. unfold mathop_text. destruct (mathop op) as [[o|]|] eqn:M; [| |apply Runs_raise].
    - apply Runs_ret. assert (F : flat o = true).
      { apply (dget_In str_eqb str_eqb_spec) in M. cbn [In] in M. repeat (destruct M as [M|M]; [first [discriminate M|injection M as _ <-; reflexivity]|]). destruct M. }
      unfold sapp. cbn [concat]. rewrite app_nil_r. split; [apply St_app; [exact A1|flats]|]. apply En_app; [flats|]. apply En_app; [exact F|exact B2].
    - unfold fix_mathops.
      assert (X : forall f, St f -> Runs (tret (sapp [f; u "("; a; u ","; b; u ")"])) Wd).
      { intros f S. apply Runs_ret. unfold sapp. cbn [concat]. rewrite app_nil_r. split; [apply St_app; [exact S|flats]|]. apply En_app; [flats|]. repeat (apply En_app; [flats|]). closed. }
      cbv zeta. destruct (str_eqb op (u "^")); [apply X; closed|]. destruct (str_eqb op (u "*")); [apply X; closed|]. destruct (str_eqb op (u "+")); [apply X; closed|].
      destruct (str_eqb op (u "-")); [apply X; closed|]. destruct (str_eqb op (u "/")); [apply X; closed|apply Runs_raise].
  Qed.
  Lemma words_named s : Wd s -> Runs (T (AText s)) Wd.
  Proof. intros W. cbn [traverse]. apply Runs_ret. destruct (str_eqb _ _); [closed|]. destruct (str_eqb _ _); [closed|exact W]. Qed.

  Theorem expr_run c : texpr c.
  Proof.
    apply DrelProofs5.cx_all; clear c; unfold texpr; cbn [flat_cx].
    - intros s W. apply words_named, word_Wd, W.
    - intros s W. apply Runs_ret, word_Wd, W.
    - intros s W. apply Runs_ret, word_Wd, W.
    - intros l F S. destruct l as [|x l]; [apply Runs_raise|]. pose proof (all_run _ F S) as R.
      change (Runs (tbind (commas T [] (u "(") (map (fun x => AExpr (bx x)) (x :: l))) (fun out => tret (drop_last out ++ u ")"))) Wd).
      eapply Runs_bind; [apply Runs_commas; exact R|]. intros s (xs & FX & L & ->). apply Runs_ret.
      assert (N : xs <> []) by (destruct xs; [discriminate L|discriminate]). rewrite drop_app by (apply commaed_ne, N).
      pose proof (joined_Wd xs N FX) as J. rewrite <- app_assoc. split; [apply St_app; [closed|flats]|]. repeat (apply En_app; [flats|]). closed.
    - intros l F S. change (T (bx (XConv l))) with (T (ACall (u "str") (map (fun x => AExpr (bx x)) l))). apply call_run; [closed|apply all_run; assumption].
    - intros l F S. destruct l as [|x l]; [apply Runs_ret; closed|]. pose proof (all_run _ F S) as R.
      change (Runs (fun st => tbind (commas T [] (list_open st) (map (fun x => AExpr (bx x)) (x :: l))) (fun out st1 => Ret (list_close st1 out, st1)) st) Wd).
      apply (Runs_at (fun st => tbind (commas T [] (list_open st) (map (fun x => AExpr (bx x)) (x :: l))) (fun out st1 => Ret (list_close st1 out, st1))) (fun st => st)); [intros ? I; exact I|].
      intros st0. eapply Runs_bind; [apply Runs_commas; exact R|]. intros s (xs & FX & L & ->).
      assert (N : xs <> []) by (destruct xs; [discriminate L|discriminate]). pose proof (joined_Wd xs N FX) as [J1 J2].
      intros st1 s st' I E. injection E as <- <-. split; [exact I|]. unfold list_close. rewrite drop_app by (apply commaed_ne, N).
      unfold list_open. destruct (is_true (s_rhs st0)), (is_true (s_rhs st1)); cbn [app].
      + rewrite <- app_assoc. split; [apply St_app; [closed|flats]|]. apply En_app; [reflexivity|]. apply En_app; [flats|closed].
      + split; [apply St_app; [closed|flats]|]. apply En_app; [reflexivity|exact J2].
      + split; [apply St_app; [exact J1|reflexivity]|]. apply En_app; [flats|closed].
      + split; assumption.
    - intros l F S. destruct l as [|x l]; [apply Runs_ret; closed|].
      change (Runs (tbind (commas (fun ke => tbind (T (snd ke)) (fun t => tret (sapp [fst ke; u ":"; t]))) [] (u "{") (map (fun ke => (fst ke, AExpr (bx (snd ke)))) (x :: l)))
                        (fun out => tret (drop_last out ++ u "}"))) Wd).
      eapply Runs_bind; [apply (Runs_commas _ (fun s => flat s = true))|].
      { revert F S. generalize (x :: l) as m. induction 1 as [|[k c] m H F IH]; intros S; cbn [map]; [constructor|]. cbn [forallb fst snd] in *.
        apply andb_true_iff in S as [S1 S2]. apply andb_true_iff in S1 as [S0 S1]. constructor; [|exact (IH S2)]. cbn [fst snd].
        eapply Runs_bind; [exact (H S1)|]. intros t W. apply Runs_ret. unfold sapp. cbn [concat]. flats. }
      intros s (xs & FX & _ & ->). apply Runs_ret. pose proof (commaed_flat [] xs eq_refl FX) as K.
      assert (FR : flat (drop_last (commaed [] xs)) = true) by (apply flat_removelast; flats).
      destruct (commaed [] xs) as [|c r] eqn:EC; [closed|]. rewrite drop_app by discriminate. rewrite <- app_assoc.
      split; [apply St_app; [closed|flats]|]. repeat (apply En_app; [flats|]). closed.
    - intros p s H S. apply andb_true_iff in S as [S1 S2]. cbn [bx traverse]. eapply Runs_bind; [exact (H S1)|]. intros x W. apply attribute_run; assumption.
    - intros p x H H2 S. apply andb_true_iff in S as [S1 S2]. cbn [bx traverse]. specialize (H S1). specialize (H2 S2). change (T (AExpr (bx x))) with (T (bx x)).
      destruct (is_tag (bx p)) as [t|]; [apply keyed_run, H2|]. eapply Runs_bind; [exact H|]. intros s W.
      intros st0 s2 st' I E. destruct (find_id e s st0) as [[[cat i] b]|].
      + exact (keyed_run cat _ H2 _ _ _ I E).
      + refine (Runs_bind _ _ Wd Wd H2 _ _ _ _ I E). intros t W2. apply Runs_ret. unfold sapp. cbn [concat]. rewrite app_nil_r.
        destruct W as [W1 _]. split; [apply St_app; [exact W1|flats]|]. apply En_app; [apply St_flat, W1|]. repeat (apply En_app; [flats|]). closed.
    - intros p a b c H Ha Hb Hc S. repeat (apply andb_true_iff in S as [S ?]). cbn [bx]. apply brackets_run; [exact (H S)|].
      constructor; [|constructor]. apply slice_run. apply el_run; assumption.
    - intros p l H F S. apply andb_true_iff in S as [S1 S2]. cbn [bx]. apply brackets_run; [exact (H S1)|].
      induction F as [|i l Hi F IH]; cbn [map]; [constructor|]. cbn [forallb] in S2. apply andb_true_iff in S2 as [S3 S4]. constructor; [|exact (IH S4)].
      destruct i as [x|a b c]; cbn [bi].
      + cbn [one_slice]. eapply Runs_weak; [exact (Hi S3)|apply Wd_flat].
      + cbn [one_slice]. cbn [slice_element]. eapply Runs_bind; [|intros x Wx; apply Runs_ret; rewrite flat_app, (Wd_flat _ Wx); reflexivity].
        fold (el a) (el b) (el c).
        destruct (proper_slice (el a) (el b) (el c)) as [|[y| |y] r]; try apply Runs_raise. apply Runs_ret. 
        split; [closed|closed].
    - intros f l F S. apply andb_true_iff in S as [S1 S2]. apply call_run; [apply word_Wd, S1|apply all_run; assumption].
    - intros op a b Ha Hb S. apply andb_true_iff in S as [S1 S2]. cbn [bx traverse]. eapply Runs_bind; [exact (Ha S1)|]. intros x W.
      eapply Runs_bind; [exact (Hb S2)|]. intros y W2. apply math_run; assumption.
    - intros a H S. cbn [bx traverse]. eapply Runs_bind; [exact (H S)|]. intros x [W1 W2]. apply Runs_ret. unfold sapp. cbn [concat]. rewrite app_nil_r.
      split; [apply St_app; [closed|flats]|]. repeat (apply En_app; [reflexivity|]). exact W2.
    - intros op a H S. apply andb_true_iff in S as [S1 S2]. cbn [bx traverse]. eapply Runs_bind; [exact (H S2)|]. intros x W. apply Runs_ret. unfold sapp. cbn [concat]. rewrite app_nil_r.
      split; [apply St_app; [closed|flats]|]. repeat (apply En_app; [flats|]). closed.
  Qed.
End Expr.
