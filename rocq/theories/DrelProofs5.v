(** Every expression is translated into a text that python reads as intended. *)
From Coq Require Import String Ascii List NArith PeanoNat Bool Lia.
From Verif Require Import PyBase PyFacts DrelModel DrelSpec DrelProofs DrelProofs2 DrelProofs3 DrelProofs4.
Import ListNotations.
Open Scope string_scope.
Open Scope list_scope.
Open Scope nat_scope.

(** Induction over expressions *)
Definition opt (P : cx -> Prop) (o : option cx) : Prop := match o with Some e => P e | None => True end.
Definition in_item (P : cx -> Prop) (i : citem) : Prop := match i with IExpr e => P e | IRange a b c => opt P a /\ opt P b /\ opt P c end.
Section Induction.
  Context (P : cx -> Prop)
    (Hname : forall s, P (XName s)) (Htag : forall s, P (XTag s)) (Hlit : forall s, P (XLit s))
    (Hgroup : forall l, Forall P l -> P (XGroup l)) (Hconv : forall l, Forall P l -> P (XConv l))
    (Hlist : forall l, Forall P l -> P (XList l))
    (Htable : forall l, Forall (fun ke => P (snd ke)) l -> P (XTable l))
    (Hattr : forall p s, P p -> P (XAttr p s))
    (Hsub : forall p e, P p -> P e -> P (XSub p e))
    (Hrange : forall p a b c, P p -> opt P a -> opt P b -> opt P c -> P (XRange p a b c))
    (Hslices : forall p l, P p -> Forall (in_item P) l -> P (XSlices p l))
    (Hcall : forall f l, Forall P l -> P (XCall f l))
    (Hbin : forall op a b, P a -> P b -> P (XBin op a b))
    (Hnot : forall a, P a -> P (XNot a)) (Hsign : forall op a, P a -> P (XSign op a)).
  Fixpoint cx_all (c : cx) : P c :=
    let fix all (l : list cx) : Forall P l :=
      match l with [] => Forall_nil _ | x :: r => Forall_cons x (cx_all x) (all r) end in
    let fix pairs (l : list (str * cx)) : Forall (fun ke => P (snd ke)) l :=
      match l with [] => Forall_nil _ | x :: r => Forall_cons x (cx_all (snd x)) (pairs r) end in
    let maybe (o : option cx) : opt P o := match o with Some x => cx_all x | None => I end in
    let of_item (i : citem) : in_item P i :=
      match i with IExpr x => cx_all x | IRange a b c => conj (maybe a) (conj (maybe b) (maybe c)) end in
    let fix items (l : list citem) : Forall (in_item P) l :=
      match l with [] => Forall_nil _ | x :: r => Forall_cons x (of_item x) (items r) end in
    match c with
    | XName s => Hname s | XTag s => Htag s | XLit s => Hlit s
    | XGroup l => Hgroup l (all l) | XConv l => Hconv l (all l) | XList l => Hlist l (all l)
    | XTable l => Htable l (pairs l)
    | XAttr p s => Hattr p s (cx_all p)
    | XSub p x => Hsub p x (cx_all p) (cx_all x)
    | XRange p a b c => Hrange p a b c (cx_all p) (maybe a) (maybe b) (maybe c)
    | XSlices p l => Hslices p l (cx_all p) (items l)
    | XCall f l => Hcall f l (all l)
    | XBin op a b => Hbin op a b (cx_all a) (cx_all b)
    | XNot a => Hnot a (cx_all a)
    | XSign op a => Hsign op a (cx_all a)
    end.
End Induction.

(** The level at which the text of an expression may stand in python. *)
Definition pylev (c : cx) : nat :=
  match c with
  | XBin op _ _ =>
      if str_eqb op (u "or") then 0 else if str_eqb op (u "and") then 1
      else if existsb (str_eqb op) comparisons then 2
      else if str_eqb op (u "|") then 4 else if str_eqb op (u "&") then 5
      else if str_eqb op (u "**") then 8 else 10
  | XNot _ => 2
  | _ => 10
  end.
Definition ops : list str :=
  [u "or"; u "and"; u "<"; u ">"; u "<="; u ">="; u "=="; u "!="; u "in"; u "not in"; u "+"; u "-"; u "*"; u "/"; u "^"; u "&"; u "|"; u "**"].
Lemma existsb_In (x : str) l : existsb (str_eqb x) l = true -> In x l.
Proof. rewrite existsb_exists. intros (y & I & E). destruct (str_eqb_spec x y); [subst; exact I|discriminate]. Qed.
Lemma stratum_ops op k : stratum op = Some k -> In op ops.
Proof.
  unfold stratum. intros H.
  destruct (str_eqb_spec op (u "or")) as [->|N1]; [vm_compute; tauto|].
  destruct (str_eqb_spec op (u "and")) as [->|N2]; [vm_compute; tauto|].
  destruct (existsb (str_eqb op) comparisons) eqn:C1.
  { apply existsb_In in C1. unfold ops. apply in_or_app with (l := [u "or"; u "and"]) (m := comparisons ++ _). right. apply in_or_app. left. exact C1. }
  destruct (existsb (str_eqb op) [u "+"; u "-"]) eqn:C2.
  { apply existsb_In in C2. destruct C2 as [<-|[<-|[]]]; vm_compute; tauto. }
  destruct (existsb (str_eqb op) [u "*"; u "/"; u "^"; u "&"; u "|"]) eqn:C3.
  { apply existsb_In in C3. destruct C3 as [<-|[<-|[<-|[<-|[<-|[]]]]]]; vm_compute; tauto. }
  destruct (str_eqb_spec op (u "**")) as [->|N3]; [vm_compute; tauto|discriminate].
Qed.
Lemma operands_ops op l r : operands op l r = true -> In op ops.
Proof. unfold operands. destruct (stratum op) eqn:S; [intros _; apply (stratum_ops _ _ S)|discriminate]. Qed.
Ltac each_op I := unfold ops in I; cbn [In] in I;
  repeat (destruct I as [<-|I]); [..|destruct I].
Lemma level_pylev e ids c : sentence e ids c = true ->
  (1 <= level c -> 1 <= pylev c) /\ (2 <= level c -> 2 <= pylev c) /\ (4 <= level c -> 4 <= pylev c) /\
  (5 <= level c -> top_or c = false -> 5 <= pylev c) /\ (6 <= level c -> 8 <= pylev c) /\ (8 <= level c -> pylev c = 10).
Proof.
  intros S. destruct c; cbn [level pylev top_or]; try (repeat split; lia).
  cbn [sentence] in S. apply andb_true_iff in S as [S _]. apply andb_true_iff in S as [S _]. apply andb_true_iff in S as [S _].
  apply operands_ops in S.
  each_op S; vm_compute; repeat split; try (intros; lia); intros; try discriminate; repeat constructor; try lia.
Qed.
Lemma pylev_le c : pylev c <= 10.
Proof. destruct c; cbn [pylev]; try lia. repeat match goal with |- (if ?b then _ else _) <= _ => destruct b end; lia. Qed.

(** What the state holds *)
Lemma calm_sub e st a b : incl b a -> calm e st a -> calm e st b.
Proof.
  intros I [A B C D E]. constructor; [| | |exact D|exact E]; intros k v H.
  - destruct (A k v H) as [[X Y]|X]; [left; split; [exact X|auto]|right; exact X].
  - destruct (B k v H) as [X Y]. split; [exact X|auto].
  - destruct (C k v H) as [X Y]. split; [exact X|auto].
Qed.
Lemma dget_none {V} (k : str) (d : list (str * V)) : (forall v, ~ In (k, v) d) -> dget str_eqb k d = None.
Proof.
  induction d as [|[k2 v2] d IH]; [reflexivity|]. intros H. cbn [dget]. destruct (str_eqb_spec k k2) as [E|N].
  - exfalso. subst k2. apply (H v2). left. reflexivity.
  - destruct (str_eqb_spec k2 k) as [E2|N2]; [congruence|]. apply IH. intros v I. apply (H v). right. exact I.
Qed.
(** A text that is not the tag of a category *)
Definition untag (s : str) : Prop := hd 0%N s <> 95%N \/ exists r, s = 95%N :: 95%N :: r.
Lemma untag_app a b : start a -> untag a -> untag (a ++ b).
Proof.
  intros S [H|[r ->]]; [left|right; exists (r ++ b); reflexivity]. destruct a; [destruct S|exact H].
Qed.
Lemma calm_ids e st used s : calm e st used -> untag s -> (identifier s = true -> In s used) -> dget str_eqb s (s_ids st) = None.
Proof.
  intros K H J. apply dget_none. intros v I. destruct (c_ids _ _ _ K _ _ I) as [[X Y]|(r & -> & X)]; [auto|].
  destruct H as [H|[r2 H]]; [apply H; reflexivity|]. injection H as ->. apply X. reflexivity.
Qed.
Lemma dmem_none {V} (k : str) (d : list (str * V)) : dget str_eqb k d = None -> dmem str_eqb k d = false.
Proof. unfold dmem. intros ->. reflexivity. Qed.
Lemma calm_find e st used s : calm e st used -> untag s -> (identifier s = true -> In s used) -> find_id e s st = None.
Proof.
  intros K H J. unfold find_id. rewrite (calm_ids e st used s K H J). rewrite dmem_none; [reflexivity|].
  apply dget_none. intros v I. destruct (c_cats _ _ _ K _ _ I) as [X Y]. auto.
Qed.
Lemma calm_packet e st used s : calm e st used -> (identifier s = true -> In s used) -> dget str_eqb s (s_packets st) = None.
Proof.
  intros K J. apply dget_none. intros v I. destruct (c_packets _ _ _ K _ _ I) as [X Y]. auto.
Qed.
Lemma set_sub_same st : s_sub st = [] -> set_sub [] st = st.
Proof. destruct st. cbn. intros ->. reflexivity. Qed.

(** What changes *)
Lemma grows_refl st : grows st st [].
Proof. constructor; try reflexivity; [| | |auto]; cbn; intros; tauto. Qed.
Lemma grows_trans st st1 st2 d1 d2 : grows st st1 d1 -> grows st1 st2 d2 -> grows st st2 (d1 ++ d2).
Proof.
  intros [A1 A2 A3 A4 A5 A6 A7 A8 A9 A10] [B1 B2 B3 B4 B5 B6 B7 B8 B9 B10].
  constructor; try congruence; [| | |auto].
  - intros x. rewrite B7, A7, map_app, in_app_iff. tauto.
  - auto.
  - intros n. rewrite B9, A9, in_app_iff. tauto.
Qed.
Lemma calm_grows e st st2 d used : calm e st used -> grows st st2 d -> calm e st2 used.
Proof.
  intros [A B C D E] G. constructor; [rewrite (g_ids _ _ _ G); exact A|exact B|rewrite (g_packets _ _ _ G); exact C|rewrite (g_sub _ _ _ G); exact D|apply (g_with _ _ _ G), E].
Qed.
Definition agrees (var : str -> str) (w : list (str * (str * nat * bool))) : Prop := forall n v k o, In (n, (v, k, o)) w -> var n = v.
Lemma agrees_grows var st st2 d : grows st st2 d -> agrees var (s_with st2) -> agrees var (s_with st).
Proof. intros G A n v k o I. apply (A n v k o), (g_keep _ _ _ G), I. Qed.

(** The claim proved by induction *)
Definition ok e ids (c : cx) : Prop :=
  sentence e ids c = true -> forall st, s_ids st = ids -> calm e st (names e ids c) -> s_rhs st = Some true \/ lists c = false ->
  exists s st2, traverse e (bx c) st = Ret (s, st2) /\ grows st st2 (needs e ids c)
    /\ (forall var, agrees var (s_with st2) -> Good (pylev c) s (mean e ids var c))
    /\ untag s /\ (is_atom (bx c) = true -> hd 0%N s <> 95%N) /\ (identifier s = true -> In s (names e ids c)).

Lemma Good_0 c s t : Good (pylev c) s t -> Good 0 s t.
Proof. apply Good_down; [apply pylev_le|lia]. Qed.
(** A list of nodes one after the other *)
Inductive Run {A} (f : A -> tr) : list A -> sp -> list str -> sp -> Prop :=
| Run_nil st : Run f [] st [] st
| Run_cons a x l xs st st1 st2 : f a st = Ret (x, st1) -> Run f l st1 xs st2 -> Run f (a :: l) st (x :: xs) st2.
Lemma commas_run {A} (f : A -> tr) before l st xs st2 : Run f l st xs st2 ->
  forall out, commas f before out l st = Ret (out ++ concat (map (fun x => before ++ x ++ u ",") xs), st2).
Proof.
  induction 1 as [st|a x l xs st st1 st2 H F IH]; intros out; cbn [commas map concat]; [rewrite app_nil_r; reflexivity|].
  unfold tbind. rewrite H. rewrite IH. unfold sapp. cbn [concat]. rewrite app_nil_r, <- !app_assoc. reflexivity.
Qed.
Lemma Run_len {A} (f : A -> tr) l st xs st2 : Run f l st xs st2 -> length xs = length l.
Proof. induction 1; cbn [length]; congruence. Qed.
Lemma incl_flat {A B} (f : A -> list B) x l : In x l -> incl (f x) (flat_map f l).
Proof. intros I y J. apply in_flat_map. eauto. Qed.
Lemma sub_calm e st a b : calm e st (a ++ b) -> calm e st a /\ calm e st b.
Proof. intros K. split; (eapply calm_sub; [|exact K]); intros x I; apply in_or_app; auto. Qed.
Lemma sub_lists st a b : s_rhs st = Some true \/ a || b = false -> (s_rhs st = Some true \/ a = false) /\ (s_rhs st = Some true \/ b = false).
Proof. intros [R|R]; [auto|]. apply orb_false_iff in R. tauto. Qed.
Lemma rhs_grows st st2 d (b : bool) : grows st st2 d -> s_rhs st = Some true \/ b = false -> s_rhs st2 = Some true \/ b = false.
Proof. intros G. rewrite (g_rhs _ _ _ G). auto. Qed.
Lemma ok_list e ids l : Forall (ok e ids) l -> forallb (sentence e ids) l = true -> forall st, s_ids st = ids -> calm e st (flat_map (names e ids) l) ->
  (s_rhs st = Some true \/ existsb lists l = false) ->
  exists xs st2, Run (traverse e) (map (fun e => AExpr (bx e)) l) st xs st2 /\ grows st st2 (flat_map (needs e ids) l)
    /\ (forall var, agrees var (s_with st2) -> Forall2 (Good 0) xs (map (mean e ids var) l)) /\ length xs = length l.
Proof.
  induction 1 as [|c l H F IH]; intros S st I K R; [exists [], st; split; [constructor|]; split; [apply grows_refl|]; split; [constructor|reflexivity]|].
  cbn [forallb flat_map existsb] in *. apply andb_true_iff in S as [S1 S2]. apply sub_calm in K as [K1 K2]. apply sub_lists in R as [R1 R2].
  destruct (H S1 st I K1 R1) as (x & st1 & E & W & G & _).
  destruct (IH S2 st1) as (xs & st2 & A & W2 & B & C).
  { rewrite (g_ids _ _ _ W). exact I. } { exact (calm_grows _ _ _ _ _ K2 W). } { exact (rhs_grows _ _ _ _ W R2). }
  exists (x :: xs), st2. split; [econstructor; [exact E|exact A]|]. split; [exact (grows_trans _ _ _ _ _ W W2)|]. cbn [map length]. split; [|congruence].
  intros var V. constructor; [apply (Good_0 c), G, (agrees_grows _ _ _ _ W2 V)|exact (B var V)].
Qed.
Lemma no_prefix xs : concat (map (fun x : str => [] ++ x ++ u ",") xs) = concat (map (fun x => x ++ u ",") xs).
Proof. reflexivity. Qed.
Lemma hd_app (a b : str) : start a -> hd 0%N (a ++ b) = hd 0%N a.
Proof. destruct a; [intros []|reflexivity]. Qed.
Lemma Good_start k s t : Good k s t -> start s. Proof. intros (ts & _ & A & _). exact A. Qed.
Lemma not_name k s t : k = 10 -> Good k s t -> (forall x, t <> PName x) -> identifier s = true -> forall P : Prop, P.
Proof. intros -> G N I. exfalso. exact (N s (Good_ident s t G I)). Qed.

(** Calls *)
Definition Call (f : str) (xs : list str) : str :=
  let fn := function_name f in
  let many := Nat.ltb 1 (length xs) in
  call_close fn many (call_open fn many ++ concat (map (fun x => snd (fst fn) ++ x ++ u ",") xs)).
Definition goodcall (f : str) : Prop :=
  forall xs ts, identifier f = true -> arity f (length xs) = true -> Forall2 (Good 0) xs ts ->
  Good 10 (Call f xs) (call_meaning f ts) /\ hd 0%N (Call f xs) <> 95%N.
Lemma builtins_good : Forall2 (fun kv kp => fst kv = fst kp /\ Good 10 (snd kv) (snd kp) /\ hd 0%N (snd kv) <> 95%N) builtins simple_functions.
Proof.
  unfold builtins, simple_functions.
  repeat (apply Forall2_cons; [split; [reflexivity|]; cbn [fst snd]; split;
    [lazymatch goal with |- Good 10 _ (dotted ?r ?p) => apply (Good_path r p); reflexivity end|discriminate]|]).
  apply Forall2_nil.
Qed.
Lemma dget_pairs {A B} (R : str -> A -> B -> Prop) (d : list (str * A)) (d2 : list (str * B)) k :
  Forall2 (fun kv kp => fst kv = fst kp /\ R (fst kv) (snd kv) (snd kp)) d d2 ->
  (dget str_eqb k d = None /\ dget str_eqb k d2 = None) \/
  exists a b, dget str_eqb k d = Some a /\ dget str_eqb k d2 = Some b /\ R k a b.
Proof.
  induction 1 as [|[k1 a] [k2 b] d d2 [E H] F IH]; [left; auto|]. cbn [fst snd] in *. subst k2. cbn [dget].
  destruct (str_eqb_spec k k1) as [X|X]; [|destruct (str_eqb_spec k1 k); [congruence|exact IH]].
  subst k1. try rewrite str_eqb_refl. right. exists a, b. auto.
Qed.
Lemma Forall2_len {A B} (R : A -> B -> Prop) l m : Forall2 R l m -> length l = length m.
Proof. induction 1; cbn [length]; congruence. Qed.
Lemma list_builtin k f : dget str_eqb k builtins = Some f -> str_eqb f (u "list") = str_eqb k (u "list").
Proof.
  unfold builtins. cbn [dget].
  repeat match goal with
  | |- (if str_eqb ?a k then _ else _) = _ -> _ =>
      let E := fresh in destruct (str_eqb_spec a k) as [E|E]; [subst k; intros X; injection X as <-; reflexivity|]
  | |- (if str_eqb k ?a then _ else _) = _ -> _ =>
      let E := fresh in destruct (str_eqb_spec k a) as [E|E]; [subst k; intros X; injection X as <-; reflexivity|]
  end. discriminate.
Qed.
Lemma open_args fn (many : bool) xs post : snd fn = Some post -> str_eqb (fst (fst fn)) (u "list") && many = false -> snd (fst fn) = [] ->
  exists o, opening o (u "(") /\ start o /\
  call_close fn many (call_open fn many ++ concat (map (fun x => snd (fst fn) ++ x ++ u ",") xs)) = (fst (fst fn) ++ o ++ joinc xs ++ u ")") ++ post.
Proof.
  destruct fn as [[g pre] p]. cbn [fst snd]. intros -> L ->. unfold call_close, call_open. cbn [fst snd]. rewrite L. cbn [app]. unfold sapp. cbn [concat app]. rewrite !app_nil_r.
  destruct xs as [|x xs].
  - exists (u "("). split; [apply opening1|]. split; [reflexivity|]. cbn [map concat]. rewrite app_nil_r.
    assert (drop_last (g ++ u "( ") = g ++ u "(") as ->.
    { change (u "( ") with (u "(" ++ [32%N]). rewrite app_assoc. apply drop_last_app. }
    cbn [joinc app]. rewrite <- !app_assoc. reflexivity.
  - exists (u "( "). split; [apply opening2|]. split; [reflexivity|]. rewrite drop_joined by discriminate. rewrite <- !app_assoc. reflexivity.
Qed.
Lemma seq_start f F s o l : opening o (u "(") -> Good 10 f F -> GoodSeq s l -> hd 0%N f <> 95%N ->
  GoodA (f ++ o ++ s ++ u ")") (PCall F l) /\ hd 0%N (f ++ o ++ s ++ u ")") <> 95%N.
Proof.
  intros O G S H. split; [apply GoodA_call; assumption|]. rewrite hd_app by (apply (Good_start _ _ _ G)). exact H.
Qed.
Ltac use_eq E := refine (eq_ind_r (fun z : str => Good 10 z _ /\ hd 0%N z <> 95%N) _ E).
Ltac path r p := change_no_check (Good 10 (path_text (u r) p) (dotted r p)); apply Good_path; reflexivity.
Lemma one_arg xs (ts : list py) : Nat.eqb (length xs) 1 = true -> Forall2 (Good 0) xs ts -> exists x t, xs = [x] /\ ts = [t] /\ Good 0 x t.
Proof.
  intros L F. apply Nat.eqb_eq in L. destruct xs as [|x [|]]; try discriminate L. inversion F as [|? t ? ts2 G F2]; subst. inversion F2; subst. eauto.
Qed.
Lemma eqb_false a b : a <> b -> str_eqb a b = false.
Proof. intros N. destruct (str_eqb_spec a b); [contradiction|reflexivity]. Qed.
Lemma identifier_hd f : identifier f = true -> hd 0%N f <> 95%N.
Proof.
  destruct f as [|c r]; [discriminate|]. cbn [identifier hd]. intros H. apply andb_true_iff in H as [H _]. apply andb_true_iff in H as [H _].
  intros ->. discriminate H.
Qed.
Lemma GoodSeq_calls xs ts : Forall2 (Good 0) xs ts ->
  GoodSeq (concat (map (fun x => x ++ u ",") xs) ++ u "ciffile") (ts ++ [PName (u "ciffile")]).
Proof.
  assert (C : Good 0 (u "ciffile") (PName (u "ciffile"))) by (apply (Good_down 0 10); [lia|lia|apply Good_name; reflexivity]).
  induction 1 as [|x t xs ts G F IH]; cbn [map concat app]; [apply GoodSeq_one, C|].
  rewrite <- !app_assoc. apply GoodSeq_cons; [exact G|exact IH].
Qed.

Lemma twochar_start o c : startc c = true -> twochar o c = false.
Proof.
  intros S. destruct (twochar o c) eqn:T2; [|reflexivity]. unfold twochar in T2. apply existsb_In in T2.
  assert (c = 42%N \/ c = 61%N) as [->| ->]; [|discriminate S|discriminate S].
  cbn [In] in T2. repeat (destruct T2 as [T2|T2]; [vm_compute in T2; injection T2 as _ E; subst c; auto|]). destruct T2.
Qed.

Section Calls.
  Context (f : str) (xs : list str) (ts : list py).
  Hypothesis F : Forall2 (Good 0) xs ts.
  Notation good := (Good 10 (Call f xs) (call_meaning f ts) /\ hd 0%N (Call f xs) <> 95%N).

  Lemma good_builtin g p : dget str_eqb (lower f) builtins = Some g -> dget str_eqb (lower f) simple_functions = Some p ->
    Good 10 g p -> hd 0%N g <> 95%N -> good.
  Proof.
    intros B S G H. unfold Call, function_name, call_meaning. rewrite B, S. cbv zeta. pose proof (list_builtin _ _ B) as L.
    rewrite <- (Forall2_len _ _ _ F). rewrite <- L.
    destruct (str_eqb g (u "list") && Nat.ltb 1 (length xs)) eqn:M.
    - unfold call_close, call_open. cbn [fst snd]. rewrite M. unfold sapp. cbn [concat app]. rewrite !app_nil_r.
      apply andb_true_iff in M as [M1 M2].
      assert (xs <> []) as NX by (intros ->; discriminate M2). rewrite drop_joined by exact NX. rewrite <- !app_assoc.
      assert (K : GoodSeq (u "[" ++ joinc xs ++ u "]") [PList ts]).
      { apply GoodSeq_one, (Good_down 0 10); [lia|lia|]. apply GoodA_Good, GoodA_list, GoodSeq_join, F. }
      pose proof (seq_start g p _ (u "( ") _ opening2 G K H) as [X Y].
      rewrite <- !app_assoc in X. rewrite <- !app_assoc in Y. split; [apply GoodA_Good, X|exact Y].
    - destruct (open_args (g, [], Some []) (Nat.ltb 1 (length xs)) xs [] eq_refl M eq_refl) as (o & O & SO & E). use_eq E. cbn [fst]. rewrite app_nil_r.
      destruct (seq_start g p _ o _ O G (GoodSeq_join _ _ F) H) as [X Y]. split; [apply GoodA_Good, X|exact Y].
  Qed.
  Lemma good_trig t (r : string) : dget str_eqb (lower f) builtins = None -> lower f = t ->
    function_name f = (u "math." ++ u r, u "math.radians(", Some (u ")")) -> part r = true -> length xs = 1 ->
    (forall y, call_meaning f [y] = math r [math "radians" [y]]) -> good.
  Proof.
    intros _ _ FN P L M. assert (L1 : Nat.eqb (length xs) 1 = true) by (rewrite L; reflexivity).
    destruct (one_arg xs ts L1 F) as (x & y & -> & -> & G). rewrite M. unfold Call. rewrite FN. cbv zeta.
    unfold call_close, call_open. cbn [fst snd length Nat.ltb Nat.leb]. rewrite !andb_false_r. unfold sapp. cbn [concat map app]. rewrite !app_nil_r.
    assert (drop_last (((u "math." ++ u r) ++ u "( ") ++ u "math.radians(" ++ x ++ u ",") = ((u "math." ++ u r) ++ u "( ") ++ u "math.radians(" ++ x) as ->.
    { change (u ",") with [44%N]. rewrite !app_assoc. apply drop_last_app. }
    assert (G1 : GoodA (u "math.radians" ++ u "(" ++ x ++ u ")") (math "radians" [y])).
    { apply GoodA_call; [apply opening1|path "math" ["radians"]|apply GoodSeq_one, G]. }
    assert (G2 : Good 10 (u "math." ++ u r) (dotted "math" [r])).
    { apply (Good_path "math" [r]); [reflexivity|]. cbn [forallb]. rewrite P. reflexivity. }
    destruct (seq_start _ _ _ (u "( ") _ opening2 G2 (GoodSeq_one _ _ (Good_down 0 10 _ _ (le_n 10) (Nat.le_0_l 10) (GoodA_Good _ _ G1)))) as [X Y].
    { discriminate. }
    split.
    - apply GoodA_Good. rewrite <- !app_assoc in *. exact X.
    - discriminate.
  Qed.
  (* g( args) followed by something *)
  Lemma good_post g (post : str) T : function_name f = (g, [], Some post) -> str_eqb g (u "list") = false ->
    (forall s, GoodSeq s ts -> forall o, opening o (u "(") -> start o -> Good 10 ((g ++ o ++ s ++ u ")") ++ post) T /\ hd 0%N ((g ++ o ++ s ++ u ")") ++ post) <> 95%N) ->
    Good 10 (Call f xs) T /\ hd 0%N (Call f xs) <> 95%N.
  Proof.
    intros FN NL H. unfold Call. rewrite FN. cbv zeta.
    destruct (open_args (g, [], Some post) (Nat.ltb 1 (length xs)) xs post eq_refl) as (o & O & SO & E); [cbn [fst]; rewrite NL; reflexivity|reflexivity|].
    use_eq E. cbn [fst]. apply H; [apply GoodSeq_join, F|exact O|exact SO].
  Qed.
  Lemma good_degrees (r : string) : function_name f = (u "math.degrees(math." ++ u r, [], Some (u ")")) -> part r = true ->
    call_meaning f ts = math "degrees" [math r ts] -> str_eqb (u "math.degrees(math." ++ u r) (u "list") = false -> good.
  Proof.
    intros FN P M NL. rewrite M. apply (good_post (u "math.degrees(math." ++ u r) (u ")")); [exact FN|exact NL|].
    intros s S o O _.
    assert (G2 : Good 10 (u "math." ++ u r) (dotted "math" [r])).
    { apply (Good_path "math" [r]); [reflexivity|]. cbn [forallb]. rewrite P. reflexivity. }
    assert (G1 : GoodA ((u "math." ++ u r) ++ o ++ s ++ u ")") (math r ts)) by (apply GoodA_call; assumption).
    assert (G3 : Good 10 (u "math.degrees") (dotted "math" ["degrees"])) by path "math" ["degrees"].
    destruct (seq_start _ _ _ (u "(") _ opening1 G3 (GoodSeq_one _ _ (Good_down 0 10 _ _ (le_n 10) (Nat.le_0_l 10) (GoodA_Good _ _ G1)))) as [X Y]; [discriminate|].
    split; [|discriminate]. apply GoodA_Good. rewrite <- !app_assoc in *. exact X.
  Qed.
  Lemma good_mod : function_name f = (u "divmod", [], Some (u "[1]")) -> call_meaning f ts = PSub (PCall (PName (u "divmod")) ts) [PNum (u "1")] -> good.
  Proof.
    intros FN M. rewrite M. apply (good_post (u "divmod") (u "[1]")); [exact FN|reflexivity|].
    intros s S o O _. assert (G : Good 10 (u "divmod") (PName (u "divmod"))) by (apply Good_name; reflexivity).
    split; [|discriminate]. change (u "[1]") with (u "[" ++ u "1" ++ u "]").
    apply Good_sub; [discriminate|apply GoodA_Good, GoodA_call; assumption|].
    apply (GoodItems_join [u "1"] [PNum (u "1")]); [discriminate|]. constructor; [|constructor].
    apply GoodItem_expr, (Good_down 0 10); [lia|lia|]. apply Good_num; reflexivity.
  Qed.
  Lemma good_matrix : function_name f = (u "numpy.matrix", [], Some (u ".astype('float64')")) ->
    call_meaning f ts = PCall (PAttr (PCall (dotted "numpy" ["matrix"]) ts) (u "astype")) [PStr (u "'float64'")] -> good.
  Proof.
    intros FN M. rewrite M. apply (good_post (u "numpy.matrix") (u ".astype('float64')")); [exact FN|reflexivity|].
    intros s S o O _. split; [|discriminate].
    assert (G : GoodA (u "numpy.matrix" ++ o ++ s ++ u ")") (PCall (dotted "numpy" ["matrix"]) ts)).
    { apply GoodA_call; [exact O|path "numpy" ["matrix"]|exact S]. }
    pose proof (Good_attr _ _ "astype" G eq_refl) as G2.
    change (u ".astype('float64')") with ((u "." ++ u "astype") ++ u "(" ++ u "'float64'" ++ u ")"). rewrite app_assoc.
    apply GoodA_Good, GoodA_call; [apply opening1|exact G2|].
    apply GoodSeq_one, (Good_down 0 10); [lia|lia|]. apply Good_str. reflexivity.
  Qed.
  Lemma good_method (a : string) : function_name f = ([], [], Some (u "." ++ u a)) -> part a = true -> length xs = 1 ->
    (forall y, call_meaning f [y] = PAttr y (u a)) -> good.
  Proof.
    intros FN P L M. assert (L1 : Nat.eqb (length xs) 1 = true) by (rewrite L; reflexivity).
    destruct (one_arg xs ts L1 F) as (x & y & E1 & E2 & G).
    rewrite E2, M. unfold Call. rewrite FN. cbv zeta.
    destruct (open_args ([], [], Some (u "." ++ u a)) (Nat.ltb 1 (length xs)) xs (u "." ++ u a) eq_refl) as (o & O & SO & E); [reflexivity|reflexivity|].
    use_eq E. cbn [fst app]. rewrite E1. cbn [joinc].
    split.
    - apply Good_attr; [apply GoodA_paren; assumption|exact P].
    - rewrite <- app_assoc, hd_app by exact SO. destruct O as [O1 O2]. specialize (O2 []). destruct o as [|c o]; [destruct SO|]. cbn [hd app stop] in *.
      intros ->. discriminate O2.
  Qed.
  Lemma good_upper : function_name f = ([], [], Some (u ".upper()")) -> length xs = 1 ->
    (forall y, call_meaning f [y] = PCall (PAttr y (u "upper")) []) -> good.
  Proof.
    intros FN L M. assert (L1 : Nat.eqb (length xs) 1 = true) by (rewrite L; reflexivity).
    destruct (one_arg xs ts L1 F) as (x & y & E1 & E2 & G).
    rewrite E2, M. unfold Call. rewrite FN. cbv zeta.
    destruct (open_args ([], [], Some (u ".upper()")) (Nat.ltb 1 (length xs)) xs (u ".upper()") eq_refl) as (o & O & SO & E); [reflexivity|reflexivity|].
    use_eq E. cbn [fst app]. rewrite E1. cbn [joinc].
    split.
    - change (u ".upper()") with ((u "." ++ u "upper") ++ u "(" ++ [] ++ u ")"). rewrite app_assoc.
      apply GoodA_Good, GoodA_call; [apply opening1|apply Good_attr; [apply GoodA_paren; assumption|reflexivity]|apply GoodSeq_nil].
    - rewrite <- app_assoc, hd_app by exact SO. destruct O as [O1 O2]. specialize (O2 []). destruct o as [|c o]; [destruct SO|]. cbn [hd app stop] in *.
      intros ->. discriminate O2.
  Qed.
  Lemma good_expimag : function_name f = (u "cmath.exp", u "1j*(", Some (u ")")) -> length xs = 1 ->
    (forall y, call_meaning f [y] = PCall (dotted "cmath" ["exp"]) [PBin (u "*") (PNum (u "1j")) y]) -> good.
  Proof.
    intros FN L M. assert (L1 : Nat.eqb (length xs) 1 = true) by (rewrite L; reflexivity).
    destruct (one_arg xs ts L1 F) as (x & y & -> & -> & G). rewrite M. unfold Call. rewrite FN. cbv zeta.
    unfold call_close, call_open. cbn [fst snd length Nat.ltb Nat.leb]. rewrite !andb_false_r. unfold sapp. cbn [concat map app]. rewrite !app_nil_r.
    assert (drop_last ((u "cmath.exp" ++ u "( ") ++ u "1j*(" ++ x ++ u ",") = (u "cmath.exp" ++ u "( ") ++ u "1j*(" ++ x) as ->.
    { change (u ",") with [44%N]. rewrite !app_assoc. apply drop_last_app. }
    assert (G1 : GoodA (u "(" ++ x ++ u ")") y) by (apply GoodA_paren; [apply opening1|reflexivity|exact G]).
    assert (G2 : Good 10 (u "1j") (PNum (u "1j"))) by (apply Good_num; reflexivity).
    assert (G3 : Good 0 (u "1j" ++ u "*" ++ u "(" ++ x ++ u ")") (PBin (u "*") (PNum (u "1j")) y)).
    { apply (Good_down 0 7); [lia|lia|]. destruct G1 as (ts1 & P1 & P2 & P3 & P4). destruct (Good_down 7 10 _ _ ltac:(lia) ltac:(lia) G2) as (ts2 & Q1 & Q2 & Q3 & Q4).
      exists (ts2 ++ TOp (u "*") :: ts1). repeat split.
      - apply (Lx_infix (u "1j") ts2 (u "*") [TOp (u "*")]); [exact Q1|intros r R|reflexivity|apply La_Lx, P1|exact P2].
        destruct r as [|c r]; [destruct R|]. cbn [start] in R.
        change (lex LIdle (u "*" ++ c :: r)) with (fst (lstep (LOp 42%N) c) ++ lex (snd (lstep (LOp 42%N) c)) r). cbn [lstep].
        assert (twochar 42 c = false) as ->; [|reflexivity].
        apply twochar_start, R.
      - apply hdok_app, Q3.
      - apply (Rd_bin 7 (u "*") (TOp (u "*")) ts2 (PNum (u "1j")) ts1 y); try lia; [reflexivity|exact Q4|].
        apply Rd_down; [lia|apply (hdok_le 9 10); [lia|exact P3]|]. apply Rd_down; [lia|exact P3|exact P4]. }
    assert (G4 : Good 10 (u "cmath.exp") (dotted "cmath" ["exp"])) by path "cmath" ["exp"].
    destruct (seq_start _ _ _ (u "( ") _ opening2 G4 (GoodSeq_one _ _ G3)) as [X Y]; [discriminate|].
    split; [|discriminate]. apply GoodA_Good. rewrite <- !app_assoc in *. exact X.
  Qed.
  Lemma good_user : identifier f = true -> function_name f = (f, [], None) -> call_meaning f ts = PCall (PName f) (ts ++ [PName (u "ciffile")]) ->
    str_eqb f (u "list") = false -> good.
  Proof.
    intros I FN M NL. rewrite M. unfold Call. rewrite FN. cbv zeta. unfold call_close, call_open. cbn [fst snd]. rewrite NL. cbn [andb]. unfold sapp. cbn [concat]. rewrite !app_nil_r.
    destruct (identifier_name f I) as [N K].
    destruct (seq_start f _ _ (u "( ") _ opening2 (Good_name f N K) (GoodSeq_calls xs ts F) (identifier_hd f I)) as [X Y].
    change (u "ciffile)") with (u "ciffile" ++ u ")"). cbn [app]. rewrite <- !app_assoc in *. split; [apply GoodA_Good, X|exact Y].
  Qed.
End Calls.

Lemma all_calls f xs ts : identifier f = true -> arity f (length xs) = true -> Forall2 (Good 0) xs ts ->
  Good 10 (Call f xs) (call_meaning f ts) /\ hd 0%N (Call f xs) <> 95%N.
Proof.
  intros I A F.
  destruct (dget_pairs (fun _ a b => Good 10 a b /\ hd 0%N a <> 95%N) builtins simple_functions (lower f)) as [[B S]|(g & p & B & S & G & H)].
  { pose proof builtins_good as X. clear - X. induction X as [|a b l m (P & Q & R) X IH]; constructor; auto. }
  2:{ apply (good_builtin f xs ts F g p); assumption. }
  assert (N1 : forall n, arity f n = true -> existsb (str_eqb (lower f)) [u "sind"; u "cosd"; u "tand"; u "upper"; u "transpose"; u "expimag"; u "real"; u "imag"] = true -> n = 1).
  { intros n X Y. unfold arity in X. rewrite Y in X. apply Nat.eqb_eq, X. }
  Local Ltac name_is f E := unfold function_name, call_meaning; rewrite E; reflexivity.
  destruct (str_eqb_spec (lower f) (u "sind")) as [E|E1].
  { apply (good_trig f xs ts F (lower f) "sin"); [exact B|reflexivity|name_is f E|reflexivity|apply N1; [exact A|rewrite E; reflexivity]|intros y; name_is f E]. }
  destruct (str_eqb_spec (lower f) (u "cosd")) as [E|E2].
  { apply (good_trig f xs ts F (lower f) "cos"); [exact B|reflexivity|name_is f E|reflexivity|apply N1; [exact A|rewrite E; reflexivity]|intros y; name_is f E]. }
  destruct (str_eqb_spec (lower f) (u "tand")) as [E|E3].
  { apply (good_trig f xs ts F (lower f) "tan"); [exact B|reflexivity|name_is f E|reflexivity|apply N1; [exact A|rewrite E; reflexivity]|intros y; name_is f E]. }
  destruct (str_eqb_spec (lower f) (u "acosd")) as [E|E4].
  { apply (good_degrees f xs ts F "acos"); [name_is f E|reflexivity|unfold call_meaning; rewrite E; destruct ts as [|? [|]]; reflexivity|reflexivity]. }
  destruct (str_eqb_spec (lower f) (u "asind")) as [E|E5].
  { apply (good_degrees f xs ts F "asin"); [name_is f E|reflexivity|unfold call_meaning; rewrite E; destruct ts as [|? [|]]; reflexivity|reflexivity]. }
  destruct (str_eqb_spec (lower f) (u "atand")) as [E|E6].
  { apply (good_degrees f xs ts F "atan"); [name_is f E|reflexivity|unfold call_meaning; rewrite E; destruct ts as [|? [|]]; reflexivity|reflexivity]. }
  destruct (str_eqb_spec (lower f) (u "atan2d")) as [E|E7].
  { apply (good_degrees f xs ts F "atan2"); [name_is f E|reflexivity|unfold call_meaning; rewrite E; destruct ts as [|? [|]]; reflexivity|reflexivity]. }
  destruct (str_eqb_spec (lower f) (u "mod")) as [E|E8].
  { apply (good_mod f xs ts F); [name_is f E|unfold call_meaning; rewrite E; destruct ts as [|? [|]]; reflexivity]. }
  destruct (str_eqb_spec (lower f) (u "upper")) as [E|E9].
  { apply (good_upper f xs ts F); [name_is f E|apply N1; [exact A|rewrite E; reflexivity]|intros y; name_is f E]. }
  destruct (str_eqb_spec (lower f) (u "transpose")) as [E|E10].
  { apply (good_method f xs ts F "T"); [name_is f E|reflexivity|apply N1; [exact A|rewrite E; reflexivity]|intros y; name_is f E]. }
  destruct (str_eqb_spec (lower f) (u "expimag")) as [E|E11].
  { apply (good_expimag f xs ts F); [name_is f E|apply N1; [exact A|rewrite E; reflexivity]|intros y; name_is f E]. }
  destruct (str_eqb_spec (lower f) (u "real")) as [E|E12].
  { apply (good_method f xs ts F "real"); [name_is f E|reflexivity|apply N1; [exact A|rewrite E; reflexivity]|intros y; name_is f E]. }
  destruct (str_eqb_spec (lower f) (u "imag")) as [E|E13].
  { apply (good_method f xs ts F "imag"); [name_is f E|reflexivity|apply N1; [exact A|rewrite E; reflexivity]|intros y; name_is f E]. }
  destruct (str_eqb_spec (lower f) (u "matrix")) as [E|E14].
  { apply (good_matrix f xs ts F); [name_is f E|unfold call_meaning; rewrite E; destruct ts as [|? [|]]; reflexivity]. }
  destruct (str_eqb_spec (lower f) (u "sort")) as [E|E15].
  { exfalso. unfold arity in A. rewrite E in A. discriminate A. }
  apply eqb_false in E1, E2, E3, E4, E5, E6, E7, E8, E9, E10, E11, E12, E13, E14, E15.
  apply (good_user f xs ts F); [exact I| | |].
  - unfold function_name. rewrite B. cbn [existsb]. rewrite E1, E2, E3, E4, E5, E6, E7, E8, E9, E10, E11, E12, E13, E14, E15. reflexivity.
  - unfold call_meaning. rewrite S, E1, E2, E3, E4, E5, E6, E7, E8, E9, E10, E11, E12, E13, E14. destruct ts as [|? [|]]; reflexivity.
  - destruct (str_eqb_spec f (u "list")) as [->|]; [discriminate B|reflexivity].
Qed.
