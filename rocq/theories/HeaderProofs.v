(** The function around a method: all rows and one row. *)
From Coq Require Import String Ascii List NArith PeanoNat Bool Lia.
From Verif Require Import PyBase PyFacts StarBlockModel TypeInfoModel HeaderModel HeaderSpec.
Import ListNotations.
Open Scope nat_scope.

Definition src (kv : str * (str * nat * bool)) : source := if snd (snd kv) then SOption (fst kv) else SData (fst kv).

(** ** Rows of iterators *)
Definition at_ (it : iter) (i : nat) : option arg := match it with Fin l => nth_error l i | Forever a => Some a end.
Definition nth_all (its : list iter) (i : nat) (row : list arg) : Prop := Forall2 (fun it a => at_ it i = Some a) its row.
Definition least (n : nat) (it : iter) : Prop := match it with Fin l => n <= length l | Forever _ => True end.
Definition exactly (n : nat) (it : iter) : Prop := match it with Fin l => length l = n | Forever _ => False end.
Lemma next_some n it : least (S n) it -> exists a it', next it = Some (a, it') /\ at_ it 0 = Some a /\ (forall i, at_ it (S i) = at_ it' i) /\ least n it' /\ (exactly (S n) it -> exactly n it').
Proof.
  destruct it as [[|a l]|a]; cbn [least length]; intros L; [lia| |].
  - exists a, (Fin l). repeat split; cbn in *; lia.
  - exists a, (Forever a). repeat split; cbn; auto.
Qed.
Lemma heads_some n its : Forall (least (S n)) its -> exists hs ts, heads its = Some (hs, ts) /\ nth_all its 0 hs /\ (forall i r, nth_all ts i r -> nth_all its (S i) r) /\ Forall (least n) ts /\ (Exists (exactly (S n)) its -> Exists (exactly n) ts).
Proof.
  induction 1 as [|it its L _ (hs & ts & E & N0 & NS & LT & X)].
  - exists [], []. split; [reflexivity|]. split; [constructor|]. split; [intros i r N; inversion N; constructor|]. split; [constructor|]. intros X. inversion X.
  - destruct (next_some n it L) as (a & it' & En & A0 & AS & L' & X'). cbn [heads]. rewrite En, E. exists (a :: hs), (it' :: ts). split; [reflexivity|]. split; [constructor; assumption|]. split.
    { intros i r N. inversion N; subst. constructor; [now rewrite AS|now apply NS]. }
    split; [constructor; assumption|]. intros Y. inversion Y; subst; [left; auto|right; auto].
Qed.
Lemma heads_none its : Exists (exactly 0) its -> heads its = None.
Proof.
  induction 1 as [it its X|it its _ IH]; cbn [heads].
  - destruct it as [[|? ?]|?]; cbn in X; [reflexivity|discriminate X|destruct X].
  - destruct (next it) as [[a i']|]; [|reflexivity]. now rewrite IH.
Qed.
(** map calls the body for every row, as long as all iterators have one. *)
Lemma map_rows_ok body : forall n its fuel, n < fuel -> Forall (least n) its -> Exists (exactly n) its ->
  exists rows, length rows = n /\ results (map body rows) (map_rows fuel body its) /\ forall i r, nth_error rows i = Some r -> nth_all its i r.
Proof.
  induction n as [|n IH]; intros its fuel L A X; (destruct fuel as [|fuel]; [lia|]); cbn [map_rows].
  - rewrite (heads_none _ X). exists []. split; [reflexivity|]. split; [constructor|]. intros [|i] r E; discriminate E.
  - destruct (heads_some n its A) as (hs & ts & E & N0 & NS & LT & XT). rewrite E. destruct (IH ts fuel) as (rows & Lr & R & Nr); [lia|exact LT|auto|].
    exists (hs :: rows). split; [cbn; lia|]. split.
    + cbn [map]. destruct (body hs) as [v|e]; cbn [obind]; [|constructor]. destruct (map_rows fuel body ts); cbn [obind]; now constructor.
    + intros [|i] r Ei; [injection Ei as <-; exact N0|]. apply NS. exact (Nr i r Ei).
Qed.
Lemma map_rows_forever body : (forall r, exists v, body r = Ret v) -> forall fuel its, its = map (fun it => it) its -> Forall (fun it => exists a, it = Forever a) its -> map_rows fuel body its = Raise OutOfFuel.
Proof.
  intros B fuel. induction fuel as [|fuel IH]; intros its _ F; [reflexivity|]. cbn [map_rows].
  assert (exists hs, heads its = Some (hs, its)) as (hs & ->).
  { clear -F. induction F as [|it its (a & ->) _ (hs & E)]; [now exists []|]. cbn [heads next]. rewrite E. now eexists. }
  destruct (B hs) as (v & ->). cbn [obind]. rewrite (IH its) by (rewrite ?map_id; auto). reflexivity.
Qed.

(** ** Options *)
Lemma option_missing f k : missing f k -> option_value f k = Ret VNone.
Proof. unfold missing, option_value. intros [->|[H|H]]; [reflexivity| |]; destruct (f_in f k); rewrite ?H; reflexivity. Qed.
Lemma option_column f k l : column f k true l -> exists v, option_value f k = Ret v /\ (v = VList l \/ v = VSL l).
Proof. intros [G I]. unfold option_value. rewrite (I eq_refl). destruct G as [-> | ->]; eexists; split; eauto. Qed.
Definition sound (f : data) (kv : str * (str * nat * bool)) : Prop := (exists l, column f (fst kv) (snd (snd kv)) l) \/ (snd (snd kv) = true /\ missing f (fst kv)).
Lemma options_ok f t : Forall (sound f) t -> exists opts, options f (map src t) = Ret opts /\
  forall kv, In kv t -> snd (snd kv) = true -> exists v, dget str_eqb (fst kv) opts = Some v /\ option_value f (fst kv) = Ret v.
Proof.
  induction 1 as [|kv t S _ (opts & E & O)]; [exists []; split; [reflexivity|intros kv []]|]. cbn [map]. unfold src at 1. destruct (snd (snd kv)) eqn:Q; cbn [options].
  - assert (exists v, option_value f (fst kv) = Ret v) as (v & Ev).
    { destruct S as [(l & C)|[_ M]]; [rewrite Q in C; destruct (option_column _ _ _ C) as (v & Ev & _); now exists v|exists VNone; now apply option_missing]. }
    rewrite Ev. cbn [obind]. rewrite E. cbn [obind]. exists ((fst kv, v) :: opts). split; [reflexivity|]. intros kv' I Q'. cbn [dget].
    destruct (str_eqb_spec (fst kv') (fst kv)) as [Ek|Nk]; [exists v; now rewrite Ek|]. destruct I as [<-|I]; [now elim Nk|]. exact (O kv' I Q').
  - exists opts. split; [exact E|]. intros kv' [<-|I] Q'; [congruence|auto].
Qed.

(** ** The columns as iterators *)
Definition iter_of (f : data) (kv : str * (str * nat * bool)) (it : iter) : Prop :=
  (exists l, column f (fst kv) (snd (snd kv)) l /\ it = Fin (map AVal l)) \/ (snd (snd kv) = true /\ missing f (fst kv) /\ it = Forever (AVal VNone)).
Lemma all_iters f opts : forall t its, Forall2 (iter_of f) t its ->
  (forall kv, In kv t -> snd (snd kv) = true -> exists v, dget str_eqb (fst kv) opts = Some v /\ option_value f (fst kv) = Ret v) ->
  exists cs, map_args f opts 0 (map src t) = Ret cs /\ iterators cs = Ret its.
Proof.
  induction 1 as [|kv it t its H _ IH]; intros O; [now exists []|]. destruct IH as (cs & E & I); [intros kv' J; apply O; now right|].
  cbn [map]. unfold src at 1. destruct (snd (snd kv)) eqn:Q; cbn [map_args].
  - destruct (O kv (or_introl eq_refl) Q) as (v & Ev & Eo). rewrite Ev. destruct H as [(l & C & ->)|(_ & M & ->)].
    + rewrite Q in C. destruct (option_column _ _ _ C) as (v' & Ev' & V). assert (v' = v) as -> by congruence. exists (CVal v :: cs). destruct V as [-> | ->]; rewrite E; (split; [reflexivity|]); cbn [iterators py_iter obind]; now rewrite I.
    + assert (v = VNone) as -> by (rewrite (option_missing _ _ M) in Eo; congruence). exists (CRepeat :: cs). rewrite E. split; [reflexivity|]. cbn [iterators]. now rewrite I.
  - destruct H as [(l & C & ->)|(D & _)]; [|congruence]. destruct C as [C _]. destruct C as [C|C]; rewrite C; cbn [obind]; rewrite E; cbn [obind]; (eexists; split; [reflexivity|]); cbn [iterators py_iter obind]; now rewrite I.
Qed.
Lemma iters_rows f t its i r : Forall2 (iter_of f) t its -> nth_all its i r -> row_of f t i r.
Proof.
  intros F. revert r. induction F as [|kv it t its H _ IH]; intros r N; inversion N as [|? a ? r' A N']; subst; [constructor|]. constructor; [|apply IH; exact N'].
  destruct H as [(l & C & ->)|(Q & M & ->)]; cbn [at_] in A.
  - rewrite nth_error_map in A. destruct (nth_error l i) as [v|] eqn:E; [|discriminate A]. injection A as <-. exact (cell_value f i kv l v C E).
  - injection A as <-. now apply cell_none.
Qed.
Lemma readable_iters f t n : readable f t n -> exists its, Forall2 (iter_of f) t its /\ Forall (least n) its /\ Exists (exactly n) its.
Proof.
  intros [A (k & e & l & I & C & L)].
  assert (exists its, Forall2 (iter_of f) t its /\ Forall (least n) its) as (its & F & Al).
  { clear -A. induction t as [|[k e] t IH]; [exists []; split; constructor|]. destruct IH as (its & F & Al); [intros k' e' I; apply (A k' e'); now right|].
    destruct (A k e (or_introl eq_refl)) as [(l & C & L)|[Q M]].
    - exists (Fin (map AVal l) :: its). split; constructor; auto; [left; now exists l|cbn; now rewrite map_length].
    - exists (Forever (AVal VNone) :: its). split; constructor; auto; [right; auto|exact Logic.I]. }
  exists its. split; [exact F|]. split; [exact Al|]. clear A Al. induction F as [|kv it t its H _ IH]; [destruct I|]. destruct I as [->|I]; [left|right; auto].
  cbn [iter_of fst snd] in H. destruct H as [(l' & C' & ->)|(Q & M & _)]; cbn [exactly].
  - rewrite map_length. destruct C as [C _], C' as [C' _]. cbn [fst] in C'. destruct C as [C|C], C' as [C'|C']; rewrite C in C'; congruence.
  - exfalso. cbn [fst snd] in *. destruct C as [C P]. destruct M as [M|[M|M]]; [rewrite (P Q) in M; discriminate M| |]; destruct C as [C|C]; rewrite C in M; discriminate M.
Qed.
Lemma readable_sound f t n : readable f t n -> Forall (sound f) t.
Proof. intros [A _]. apply Forall_forall. intros [k e] I. destruct (A k e I) as [(l & C & _)|H]; [left; now exists l|now right]. Qed.
Lemma header_plain t cat h : make_header t false cat = Some h -> h = mkHeader (map src t) NoRows.
Proof. destruct t; [discriminate|]. unfold make_header. intros H. injection H as <-. reflexivity. Qed.
Theorem all_rows f t cat h body n fuel : make_header t false cat = Some h -> readable f t n -> n < fuel ->
  exists rows, length rows = n /\ (forall i r, nth_error rows i = Some r -> row_of f t i r) /\ results (map body rows) (call_all fuel h body f).
Proof.
  intros H R L. rewrite (header_plain _ _ _ H). destruct (options_ok f t (readable_sound _ _ _ R)) as (opts & Eo & O). destruct (readable_iters _ _ _ R) as (its & F & A & X). destruct (all_iters f opts t its F O) as (cs & Ec & Ei).
  unfold call_all. cbn [compiled h_rows h_args obind]. rewrite Eo. cbn [obind row_count]. rewrite Ec. cbn [obind]. rewrite Ei. cbn [obind].
  destruct (map_rows_ok body n its fuel L A X) as (rows & Lr & Rr & Nr). exists rows. split; [exact Lr|]. split; [|exact Rr]. intros i r E. exact (iters_rows f t its i r F (Nr i r E)).
Qed.
Theorem one_row f t cat h body n i r : make_header t false cat = Some h -> readable f t n -> (forall k e, In (k, e) t -> snd e = true -> missing f k) -> row_of f t i r ->
  call_one h body f i = body r.
Proof.
  intros H R M W. rewrite (header_plain _ _ _ H). destruct (options_ok f t (readable_sound _ _ _ R)) as (opts & Eo & O). unfold call_one. cbn [compiled h_rows h_args obind]. rewrite Eo. cbn [obind].
  assert (one_args f opts i (map src t) = Ret r) as ->; [|reflexivity]. clear H R Eo. induction W as [|kv a t r C _ IH]; [reflexivity|]. cbn [map]. unfold src at 1.
  specialize (IH (fun k e I => M k e (or_intror I)) (fun kv' I => O kv' (or_intror I))). destruct (snd (snd kv)) eqn:Q; cbn [one_args].
  - destruct (O kv (or_introl eq_refl) Q) as (v & Ev & Ov). rewrite Ev, IH. cbn [obind]. assert (missing f (fst kv)) as Mk by (destruct kv as [k e]; exact (M k e (or_introl eq_refl) Q)).
    rewrite (option_missing _ _ Mk) in Ov. injection Ov as <-. destruct C as [l v [C P] E|_ _]; [|reflexivity]. exfalso. destruct Mk as [Mk|[Mk|Mk]]; [rewrite (P Q) in Mk; discriminate Mk| |]; destruct C as [C|C]; rewrite C in Mk; discriminate Mk.
  - destruct C as [l v [C P] E|D _]; [|congruence]. destruct C as [C|C]; rewrite C; cbn [obind py_index]; rewrite E; cbn [obind]; now rewrite IH.
Qed.
Lemma row_exists f t n i : readable f t n -> i < n -> exists r, row_of f t i r.
Proof.
  intros [A _] L. induction t as [|[k e] t IH]; [exists []; constructor|]. destruct IH as (r & W); [intros k' e' I; apply (A k' e'); now right|]. destruct (A k e (or_introl eq_refl)) as [(l & C & Ll)|[Q M]].
  - destruct (nth_error l i) as [v|] eqn:E; [|apply nth_error_None in E; lia]. exists (AVal v :: r). constructor; [|exact W]. exact (cell_value f i (k, e) l v C E).
  - exists (AVal VNone :: r). constructor; [|exact W]. exact (cell_none f i (k, e) Q M).
Qed.
(** Nothing but missing options: no end. *)
Theorem endless f t cat h body fuel : make_header t false cat = Some h -> (forall k e, In (k, e) t -> snd e = true /\ missing f k) -> (forall r, exists v, body r = Ret v) ->
  call_all fuel h body f = Raise OutOfFuel.
Proof.
  intros H A B. rewrite (header_plain _ _ _ H). assert (Forall (sound f) t) as S by (apply Forall_forall; intros [k e] I; right; exact (A k e I)). destruct (options_ok f t S) as (opts & Eo & O).
  destruct (all_iters f opts t (map (fun _ => Forever (AVal VNone)) t)) as (cs & Ec & Ei).
  - clear -A. induction t as [|[k e] t IH]; constructor; [right; destruct (A k e (or_introl eq_refl)); auto|]. apply IH. intros k' e' I. apply (A k' e'). now right.
  - exact O.
  - unfold call_all. cbn [compiled h_rows h_args obind]. rewrite Eo. cbn [obind row_count]. rewrite Ec. cbn [obind]. rewrite Ei. cbn [obind]. apply map_rows_forever; [exact B|now rewrite map_id|]. apply Forall_forall. intros it I. apply in_map_iff in I as (x & <- & _). now eexists.
Qed.

(** ** Row numbers *)
Lemma nth_error_same {A} : forall l l' : list A, (forall i, nth_error l i = nth_error l' i) -> l = l'.
Proof.
  induction l as [|x l IH]; intros [|y l'] H; [reflexivity|discriminate (H 0)|discriminate (H 0)|]. f_equal; [now injection (H 0)|]. apply IH. intros i. exact (H (S i)).
Qed.
Theorem row_numbers f cat h body : make_header [] true cat = Some h ->
  match filter (f_has f) (f_cat f cat) with
  | [] => forall fuel, call_all fuel h body f = Ret []
  | k :: _ => forall l fuel, column f k false l -> length l < fuel -> results (map (fun i => body [ARow i]) (seq 0 (length l))) (call_all fuel h body f)
  end.
Proof.
  intros H. injection H as <-. unfold call_all. cbn [compiled h_rows h_args obind options row_count]. destruct (filter (f_has f) (f_cat f cat)) as [|k ks]; [reflexivity|].
  intros l fuel [C _] L. assert (obind (f_get f k) (fun v => obind (py_len v) (fun n => Ret (Some n))) = Ret (Some (length l))) as -> by (destruct C as [-> | ->]; reflexivity).
  cbn [obind map_args iterators]. destruct (map_rows_ok body (length l) [Fin (map ARow (seq 0 (length l)))] fuel L) as (rows & Lr & Rr & Nr).
  - repeat constructor. cbn. now rewrite map_length, seq_length.
  - left. cbn. now rewrite map_length, seq_length.
  - assert (map body rows = map (fun i => body [ARow i]) (seq 0 (length l))) as <-; [|exact Rr]. rewrite <- (map_map (fun i => [ARow i]) body). f_equal.
    apply nth_error_same. intros i. destruct (nth_error rows i) as [r|] eqn:E.
    + specialize (Nr i r E). inversion Nr as [|? a ? row' Ea N']; subst. inversion N'; subst. cbn [at_] in Ea. rewrite nth_error_map in *. destruct (nth_error (seq 0 (length l)) i) as [j|]; [|discriminate Ea]. cbn in Ea |- *. now injection Ea as <-.
    + apply nth_error_None in E. symmetry. apply nth_error_None. rewrite map_length, seq_length. lia.
Qed.
Theorem row_syntax kv t cat h body f : make_header (kv :: t) true cat = Some h -> (forall fuel, call_all fuel h body f = Raise SyntaxErr) /\ forall i, call_one h body f i = Raise SyntaxErr.
Proof. intros H. injection H as <-. split; reflexivity. Qed.
Theorem row_one cat h body f i : make_header [] true cat = Some h -> call_one h body f i = Raise NameErr.
Proof. intros H. injection H as <-. reflexivity. Qed.

(** ** The text of the body *)
Lemma lines_ne c s : lines_of (c :: s) <> [].
Proof. cbn [lines_of]. destruct (c =? 10)%N; [discriminate|]. destruct (lines_of s); discriminate. Qed.
Lemma add_indent_spaced s : spaced 4 s (add_indent s).
Proof. induction s as [|c s IH]; cbn [add_indent]; [constructor|]. destruct (N.eqb_spec c 10) as [->|N]; constructor; auto. Qed.
Lemma body_spaced s : s <> [] -> last s 0%N <> 10%N -> exists t, spaced 8 s t /\ concat (map (fun l => indent ++ l ++ [10%N]) (lines_of s)) = indent ++ t ++ [10%N].
Proof.
  induction s as [|c s IH]; intros NE NL; [now elim NE|]. destruct s as [|d s].
  - exists [c]. cbn [last] in NL. split; [repeat constructor; exact NL|]. cbn [lines_of]. apply N.eqb_neq in NL. rewrite NL. cbn [map concat]. now rewrite app_nil_r.
  - destruct IH as (t & S & E); [discriminate|exact NL|]. remember (d :: s) as r eqn:Er. cbn [lines_of]. destruct (N.eqb_spec c 10) as [->|Nc].
    + exists (10%N :: repeat 32%N 8 ++ t). split; [now constructor|]. cbn [map concat]. rewrite E. cbn [app]. unfold indent. now rewrite <- !app_assoc.
    + exists (c :: t). split; [now constructor|]. destruct (lines_of r) as [|l ls] eqn:El; [rewrite Er in El; now apply lines_ne in El|]. cbn [map concat] in *. rewrite <- !app_assoc in *. apply app_inv_head in E. f_equal. exact (f_equal (cons c) E).
Qed.
Theorem body_kept s : s <> [] -> last s 0%N <> 10%N -> exists t, spaced 8 s t /\ body_text s = Ret (indent ++ t ++ [10%N]).
Proof.
  intros NE NL. destruct (body_spaced s NE NL) as (t & S & E). exists t. split; [exact S|]. unfold body_text. rewrite E.
  assert (forallb (fun l : list N => match l with [] => true | _ :: _ => false end) (lines_of s) = false) as ->; [|reflexivity].
  clear -NE NL. induction s as [|c s IH]; [now elim NE|]. cbn [lines_of]. destruct s as [|d s].
  - cbn [last] in NL. apply N.eqb_neq in NL. rewrite NL. reflexivity.
  - destruct (N.eqb_spec c 10) as [->|Nc]; [cbn [forallb]; apply IH; [discriminate|exact NL]|]. destruct (lines_of (d :: s)) eqn:El; reflexivity.
Qed.
Lemma spaced_fun k s t t' : spaced k s t -> spaced k s t' -> t = t'.
Proof. intros S. revert t'. induction S; intros t' S'; inversion S'; subst; try congruence; f_equal; [f_equal|]; auto. Qed.
Lemma spaced_app k a x : spaced k a x -> forall b y, spaced k b y -> spaced k (a ++ b) (x ++ y).
Proof. induction 1; intros b y S'; cbn [app]; [exact S'| |]; [rewrite <- app_assoc|]; constructor; auto. Qed.
Lemma spaced_total k s : exists t, spaced k s t.
Proof. induction s as [|c s (t & S)]; [exists []; constructor|]. destruct (N.eq_dec c 10) as [->|N]; eexists; constructor; eauto. Qed.
Lemma spaced_length k s t : spaced k s t -> length t = length s + k * count_occ N.eq_dec s 10%N.
Proof.
  induction 1 as [|s t _ IH|c s t N _ IH]; [cbn; lia| |]; cbn [count_occ length].
  - destruct (N.eq_dec 10 10) as [_|D]; [|now elim D]. rewrite app_length, repeat_length. lia.
  - destruct (N.eq_dec c 10); [easy|]. lia.
Qed.
Lemma spaced_same k s : ~ In 10%N s -> spaced k s s.
Proof. induction s as [|c s IH]; intros N; constructor; [intros ->; apply N; now left|]. apply IH. intros I. apply N. now right. Qed.
