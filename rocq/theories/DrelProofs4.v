(** The texts of expressions: splitting and reading together. *)
From Coq Require Import String Ascii List NArith PeanoNat Bool Lia.
From Verif Require Import PyBase PyFacts DrelModel DrelSpec DrelProofs DrelProofs2 DrelProofs3.
Import ListNotations.
Open Scope string_scope.
Open Scope list_scope.
Open Scope nat_scope.

Definition Good (k : nat) (s : str) (t : py) : Prop := exists ts, Lx s ts /\ start s /\ hdok k ts /\ Rd k ts t.
Definition GoodA (s : str) (t : py) : Prop := exists ts, La s ts /\ start s /\ hdok 10 ts /\ Rd 10 ts t.
Definition GoodSeq (s : str) (l : list py) : Prop := exists js, Lx s js /\ Seq js l.

Lemma start_app a b : start a -> start (a ++ b).
Proof. destruct a; [intros []|auto]. Qed.
Lemma GoodA_Good s t : GoodA s t -> Good 10 s t.
Proof. intros (ts & A & B & C & D). exists ts. split; [apply La_Lx, A|auto]. Qed.
Lemma Good_down1 k s t : k <= 9 -> Good (S k) s t -> Good k s t.
Proof.
  intros K (ts & A & B & C & D). exists ts. repeat split; [exact A|exact B|apply (hdok_le k (S k)); [lia|exact C]|apply Rd_down; assumption].
Qed.
Lemma Good_down j k s t : k <= 10 -> j <= k -> Good k s t -> Good j s t.
Proof.
  intros K L. revert K. induction L as [|k L IH]; intros K G; [exact G|]. apply IH; [lia|]. apply Good_down1; [lia|exact G].
Qed.

(** Infix operators *)
Lemma Lx_infix x tx o os y ty : Lx x tx -> Lo o os -> (forall r, start r -> stop (o ++ r)) -> Lx y ty -> start y ->
  Lx (x ++ o ++ y) (tx ++ os ++ ty).
Proof.
  intros X O S Y SY rest R. rewrite <- !app_assoc, X; [|apply S, start_app; exact SY].
  rewrite O; [|apply start_app; exact SY]. rewrite (Y _ R). reflexivity.
Qed.
Lemma Good_bin k op t o x y a b : k <= 9 -> k <> 3 -> k <> 9 -> binop k t = Some op -> La o [t] -> (forall r, stop (o ++ r)) ->
  Good k x a -> Good (S k) y b -> Good k (x ++ o ++ y) (PBin op a b).
Proof.
  intros K N3 N9 B O S (tx & A1 & A2 & A3 & A4) (ty & B1 & B2 & B3 & B4). exists (tx ++ [t] ++ ty). repeat split.
  - apply Lx_infix; auto using La_Lo.
  - apply start_app, A2.
  - apply hdok_app, A3.
  - apply (Rd_bin k op t tx a ty b); assumption.
Qed.
Lemma Good_cmp op os o x y a b : (forall more, cmpop (os ++ more) = Some (op, more)) -> os <> [] -> Lo o os -> (forall r, start r -> stop (o ++ r)) ->
  Good 4 x a -> Good 4 y b -> Good 2 (x ++ o ++ y) (PCmp a [(op, b)]).
Proof.
  intros C N O S (tx & A1 & A2 & A3 & A4) (ty & B1 & B2 & B3 & B4). exists (tx ++ os ++ ty). repeat split.
  - apply Lx_infix; auto using La_Lo.
  - apply start_app, A2.
  - apply hdok_app, (hdok_le 2 4); [lia|exact A3].
  - apply Rd_cmp; try assumption. apply (hdok_le 3 4); [lia|exact A3].
Qed.
Lemma Good_power x y a b : Good 10 x a -> Good 8 y b -> Good 8 (x ++ u "**" ++ y) (PBin (u "**") a b).
Proof.
  intros (tx & A1 & A2 & A3 & A4) (ty & B1 & B2 & B3 & B4). exists (tx ++ [TOp (u "**")] ++ ty). repeat split.
  - apply Lx_infix; auto; intros r; reflexivity.
  - apply start_app, A2.
  - apply hdok_app, (hdok_le 8 10); [lia|exact A3].
  - apply Rd_power; assumption.
Qed.
Lemma Good_not x a : Good 2 x a -> Good 2 (u "not " ++ x) (PNot a).
Proof.
  intros (tx & A1 & A2 & A3 & A4). exists ([TName (u "not")] ++ tx). repeat split.
  - apply La_Lx_app; [intros r; reflexivity|exact A1].
  - intros; lia.
  - apply Rd_not, A4.
Qed.

(** Atoms *)
Lemma identifier_start s : identifier s = true -> start s.
Proof.
  destruct s as [|c r]; [discriminate|]. cbn [identifier start]. rewrite !andb_true_iff. intros [[A _] _].
  unfold startc, is_word. rewrite A. reflexivity.
Qed.
Lemma name_start s : name_text s = true -> start s.
Proof.
  destruct s as [|c r]; [discriminate|]. cbn [name_text start]. rewrite andb_true_iff. intros [A _].
  unfold startc, is_word. apply orb_true_iff in A as [A|A]; rewrite A; [reflexivity|]. rewrite !orb_true_r. reflexivity.
Qed.
Lemma keyword_not s : keyword s = false -> str_eqb s (u "not") = false.
Proof. intros K. destruct (str_eqb_spec s (u "not")) as [->|]; [discriminate K|reflexivity]. Qed.
Lemma Good_name s : name_text s = true -> keyword s = false -> Good 10 s (PName s).
Proof.
  intros N K. exists [TName s]. repeat split; [apply Lx_name, N|apply name_start, N| |apply Rd_name, K].
  intros _. cbn [is_kw]. apply keyword_not, K.
Qed.
Lemma Good_num s : py_number s = true -> start s -> Good 10 s (PNum s).
Proof. intros N S. exists [TNum s]. repeat split; [apply Lx_number, N|exact S|apply Rd_num, N]. Qed.
Lemma text_start s : short_text s = true -> start s /\ is_quote (hd 0%N s) = true.
Proof.
  destruct s as [|q r]; [discriminate|]. cbn [short_text start hd]. rewrite !andb_true_iff. intros [[[Q _] _] _].
  unfold startc. rewrite Q, orb_true_r. auto.
Qed.
Lemma Good_str s : short_text s = true -> Good 10 s (PStr s).
Proof. intros N. exists [TStr s]. repeat split; [apply Lx_text, N|apply text_start, N|apply Rd_str]. Qed.
Lemma number_start s : py_number s = true -> start s /\ is_quote (hd 0%N s) = false /\ hd 0%N s <> 95%N /\ identifier s = false.
Proof.
  unfold py_number. intros H. destruct (span_split is_digit s) as [Sp Dg].
  destruct (fst (span is_digit s)) as [|c w] eqn:E.
  - cbn [app] in Sp. rewrite <- Sp in H. destruct (N.eqb (hd 0%N s) 46) eqn:P; [|discriminate H].
    apply N.eqb_eq in P. destruct s as [|c r]; [discriminate P|]. cbn [hd] in *. subst c. repeat split; try reflexivity. discriminate.
  - rewrite Sp. cbn [app hd start identifier]. cbn [forallb] in Dg. apply andb_true_iff in Dg as [D _].
    assert (N.leb 48 c = true /\ N.leb c 57 = true) as [A B] by (apply andb_true_iff; exact D). apply N.leb_le in A, B.
    repeat split.
    + unfold startc. rewrite (digit_word _ D). reflexivity.
    + unfold is_quote. apply orb_false_iff. split; apply N.eqb_neq; lia.
    + lia.
    + assert (is_letter c = false) as ->; [|reflexivity].
      unfold is_letter. apply orb_false_iff. split; apply andb_false_iff; left; apply N.leb_gt; lia.
Qed.
(** Dotted names *)
Definition Ln (s : str) (ts : list tok) : Prop :=
  forall rest, stop rest \/ (exists c r, rest = 46%N :: c :: r /\ (is_letter c || N.eqb c 95) = true) -> lex LIdle (s ++ rest) = ts ++ lex LIdle rest.
Lemma Ln_name s : name_text s = true -> Ln s [TName s].
Proof.
  intros N rest [S|(c & r & -> & L)]; [apply Lx_name; assumption|].
  destruct s as [|d s]; [discriminate|]. cbn [name_text] in N. apply andb_true_iff in N as [A B].
  cbn [app]. change (lex LIdle (d :: s ++ 46%N :: c :: r)) with (fst (lstep LIdle d) ++ lex (snd (lstep LIdle d)) (s ++ 46%N :: c :: r)).
  cbn [lstep]. unfold idle at 1 2. rewrite (letter_not_space _ A), A. cbn [fst snd app].
  rewrite (lex_word s [d] (46%N :: c :: r) B). reflexivity.
Qed.
Lemma Ln_Lx s ts : Ln s ts -> Lx s ts. Proof. intros H r S. apply H. left. exact S. Qed.
Lemma lex_dot c r : (is_letter c || N.eqb c 95) = true -> lex LIdle (46%N :: c :: r) = TOp [46%N] :: lex LIdle (c :: r).
Proof.
  intros L. change (lex LIdle (46%N :: c :: r)) with (fst (lstep LDot c) ++ lex (snd (lstep LDot c)) r).
  assert (is_digit c = false) as D.
  { destruct (is_digit c) eqn:D; [|reflexivity].
    assert (N.leb 48 c = true /\ N.leb c 57 = true) as [A B] by (apply andb_true_iff; exact D). apply N.leb_le in A, B.
    apply orb_true_iff in L as [L|L]; [|apply N.eqb_eq in L; lia].
    unfold is_letter in L. apply orb_true_iff in L as [L|L]; apply andb_true_iff in L as [L1 L2]; apply N.leb_le in L1, L2; lia. }
  cbn [lstep]. rewrite D. reflexivity.
Qed.
Lemma name_cases a : name_text a = true -> exists c r, a = c :: r /\ (is_letter c || N.eqb c 95) = true.
Proof. destruct a as [|c r]; [discriminate|]. cbn [name_text]. intros H. apply andb_true_iff in H as [A _]. eauto. Qed.
Lemma Ln_dot s ts a : Ln s ts -> name_text a = true -> Ln (s ++ u "." ++ a) (ts ++ [TOp (u "."); TName a]).
Proof.
  intros H N rest R. destruct (name_cases a N) as (c & r & E & L). rewrite <- !app_assoc.
  rewrite H; [|right; exists c, (r ++ rest); subst a; split; [reflexivity|exact L]].
  f_equal. change (u "." ++ a ++ rest) with (46%N :: a ++ rest).
  transitivity (TOp [46%N] :: lex LIdle (a ++ rest)); [subst a; apply (lex_dot c (r ++ rest) L)|].
  rewrite (Ln_name a N rest R). reflexivity.
Qed.
Definition part (a : string) : bool := name_text (u a) && negb (keyword (u a)).
Fixpoint path_text (s : str) (path : list string) : str :=
  match path with [] => s | a :: r => path_text (s ++ u "." ++ u a) r end.
Lemma part_ok a : part a = true -> name_text (u a) = true /\ keyword (u a) = false.
Proof. unfold part. rewrite andb_true_iff, negb_true_iff. auto. Qed.
Lemma Good_path_gen path : forall s ts t, forallb part path = true -> Ln s ts -> start s -> hdok 10 ts -> Rd 10 ts t ->
  Good 10 (path_text s path) (fold_left (fun p a => PAttr p (u a)) path t).
Proof.
  induction path as [|a path IH]; intros s ts t P A B C D.
  - exists ts. split; [apply Ln_Lx, A|auto].
  - cbn [forallb] in P. apply andb_true_iff in P as [P1 P2]. apply part_ok in P1 as [N K].
    cbn [path_text fold_left]. apply (IH _ (ts ++ [TOp (u "."); TName (u a)])); [exact P2|apply Ln_dot; assumption|apply start_app, B|apply hdok_app, C|].
    apply Rd_attr; assumption.
Qed.
Lemma Good_path root path : part root = true -> forallb part path = true -> Good 10 (path_text (u root) path) (dotted root path).
Proof.
  intros R P. apply part_ok in R as [N K]. apply (Good_path_gen path _ [TName (u root)]); [exact P|apply Ln_name, N|apply name_start, N| |apply Rd_name, K].
  repeat split. intros _. cbn [is_kw]. apply keyword_not, K.
Qed.

(** Arguments *)
Lemma GoodSeq_nil : GoodSeq [] [].
Proof. exists []. split; [apply La_Lx, La_nil|apply Seq_nil]. Qed.
Lemma GoodSeq_one s t : Good 0 s t -> GoodSeq s [t].
Proof. intros (ts & A & B & C & D). exists ts. split; [exact A|apply Seq_one; assumption]. Qed.
Lemma Lx_comma a ta b tb : Lx a ta -> Lx b tb -> Lx (a ++ u "," ++ b) (ta ++ TOp (u ",") :: tb).
Proof.
  intros A B rest R. rewrite <- !app_assoc. rewrite A; [|reflexivity]. f_equal.
  change (lex LIdle (u "," ++ b ++ rest)) with (TOp (u ",") :: lex LIdle (b ++ rest)). rewrite (B _ R). reflexivity.
Qed.
Lemma GoodSeq_cons s t r l : Good 0 s t -> GoodSeq r l -> GoodSeq (s ++ u "," ++ r) (t :: l).
Proof.
  intros (ts & A & B & C & D) (js & E & F). exists (ts ++ TOp (u ",") :: js). split; [apply Lx_comma; assumption|apply Seq_cons; assumption].
Qed.
Fixpoint joinc (l : list str) : str :=
  match l with [] => [] | [x] => x | x :: r => x ++ u "," ++ joinc r end.
Lemma joinc_cons x y r : joinc (x :: y :: r) = x ++ u "," ++ joinc (y :: r). Proof. reflexivity. Qed.
Lemma GoodSeq_join xs ts : Forall2 (Good 0) xs ts -> GoodSeq (joinc xs) ts.
Proof.
  induction 1 as [|x t xs ts G F IH]; [apply GoodSeq_nil|]. destruct F as [|x2 t2 xs ts G2 F]; [apply GoodSeq_one, G|].
  rewrite joinc_cons. apply GoodSeq_cons; assumption.
Qed.
Lemma joined xs : xs <> [] -> concat (map (fun x => x ++ u ",") xs) = joinc xs ++ u ",".
Proof.
  induction xs as [|x xs IH]; [congruence|]. intros _. destruct xs as [|y xs]; [cbn [map concat joinc]; rewrite app_nil_r; reflexivity|].
  change (concat (map (fun x => x ++ u ",") (x :: y :: xs))) with ((x ++ u ",") ++ concat (map (fun x => x ++ u ",") (y :: xs))).
  rewrite IH by discriminate. rewrite joinc_cons, <- !app_assoc. reflexivity.
Qed.
Lemma drop_last_app a c : drop_last (a ++ [c]) = a.
Proof. apply removelast_last. Qed.
Lemma drop_joined out xs : xs <> [] -> drop_last (out ++ concat (map (fun x => x ++ u ",") xs)) = out ++ joinc xs.
Proof. intros N. rewrite (joined xs N), app_assoc. apply drop_last_app. Qed.

Definition opening (o : str) (op : str) : Prop := La o [TOp op] /\ (forall r, stop (o ++ r)).
Lemma GoodA_call f F o s l : opening o (u "(") -> Good 10 f F -> GoodSeq s l -> GoodA (f ++ o ++ s ++ u ")") (PCall F l).
Proof.
  intros [O1 O2] (tf & A & B & C & D) (js & E & G). exists (tf ++ TOp (u "(") :: js ++ [TOp (u ")")]). repeat split.
  - intros rest. rewrite <- !app_assoc. rewrite A; [|apply O2]. f_equal. rewrite O1. cbn [app]. f_equal.
    rewrite E; [|reflexivity]. rewrite <- app_assoc. reflexivity.
  - apply start_app, B.
  - apply hdok_app, C.
  - apply Rd_call; assumption.
Qed.
Lemma opening1 : opening (u "(") (u "("). Proof. split; intros r; reflexivity. Qed.
Lemma opening2 : opening (u "( ") (u "("). Proof. split; intros r; reflexivity. Qed.
Lemma GoodA_paren o s t : opening o (u "(") -> start o -> Good 0 s t -> GoodA (o ++ s ++ u ")") t.
Proof.
  intros [O1 O2] SO (ts & A & B & C & D). exists (TOp (u "(") :: ts ++ [TOp (u ")")]). repeat split.
  - intros rest. rewrite <- !app_assoc. rewrite O1. cbn [app]. f_equal. rewrite A; [|reflexivity]. rewrite <- app_assoc. reflexivity.
  - apply start_app, SO.
  - apply Rd_paren; [exact C|exact D].
Qed.
Lemma GoodA_tuple s t r l : Good 0 s t -> GoodSeq r l -> GoodA (u "(" ++ (s ++ u "," ++ r) ++ u ")") (PTuple (t :: l)).
Proof.
  intros (ts & A & B & C & D) (js & E & G). exists (TOp (u "(") :: ts ++ TOp (u ",") :: js ++ [TOp (u ")")]). repeat split.
  - intros rest. pose proof (Lx_comma s ts r js A E) as X. rewrite <- app_assoc.
    change (lex LIdle (u "(" ++ ((s ++ u "," ++ r) ++ u ")") ++ rest)) with (TOp (u "(") :: lex LIdle (((s ++ u "," ++ r) ++ u ")") ++ rest)).
    rewrite <- app_assoc. rewrite X; [|reflexivity]. cbn [app]. f_equal. rewrite <- !app_assoc. cbn [app]. rewrite <- !app_assoc. reflexivity.
  - apply Rd_tuple; assumption.
Qed.
Lemma GoodA_list s l : GoodSeq s l -> GoodA (u "[" ++ s ++ u "]") (PList l).
Proof.
  intros (js & E & G). exists (TOp (u "[") :: js ++ [TOp (u "]")]). repeat split.
  - intros rest. rewrite <- !app_assoc.
    change (lex LIdle (u "[" ++ s ++ u "]" ++ rest)) with (TOp (u "[") :: lex LIdle (s ++ u "]" ++ rest)).
    rewrite E; [|reflexivity]. cbn [app]. f_equal. rewrite <- app_assoc. reflexivity.
  - apply Rd_list, G.
Qed.
Lemma Good_attr s t a : GoodA s t -> part a = true -> Good 10 (s ++ u "." ++ u a) (PAttr t (u a)).
Proof.
  intros (ts & A & B & C & D) P. apply part_ok in P as [N K]. exists (ts ++ [TOp (u "."); TName (u a)]). repeat split.
  - intros rest S. destruct (name_cases _ N) as (c & r & E & L). rewrite <- !app_assoc. rewrite A. f_equal.
    change (u "." ++ u a ++ rest) with (46%N :: u a ++ rest).
    transitivity (TOp [46%N] :: lex LIdle (u a ++ rest)); [rewrite E; apply (lex_dot c (r ++ rest) L)|].
    rewrite (Lx_name _ N rest S). reflexivity.
  - apply start_app, B.
  - apply hdok_app, C.
  - apply Rd_attr; assumption.
Qed.
(** Subscripts *)
Definition GoodItem (s : str) (t : py) : Prop := exists ts, Lx s ts /\ Item ts t.
Definition GoodItems (s : str) (l : list py) : Prop := exists js, Lx s js /\ Items js l.
Lemma GoodItem_expr s t : Good 0 s t -> GoodItem s t.
Proof. intros (ts & A & B & C & D). exists ts. split; [exact A|apply Item_expr; assumption]. Qed.
Lemma Lx_colon a ta b tb : Lx a ta -> Lx b tb -> Lx (a ++ u ":" ++ b) (ta ++ colon :: tb).
Proof.
  intros A B rest R. rewrite <- !app_assoc. rewrite A; [|reflexivity]. f_equal.
  change (lex LIdle (u ":" ++ b ++ rest)) with (TOp (u ":") :: lex LIdle (b ++ rest)). rewrite (B _ R). reflexivity.
Qed.
Lemma GoodItem_1 s a : Good 0 s a -> GoodItem (s ++ u ":") (PSlice (Some a) None None).
Proof.
  intros (ts & A & B & C & D). exists (ts ++ [colon]). split; [|apply Item_slice1; assumption].
  pose proof (Lx_colon s ts [] [] A (La_Lx _ _ La_nil)) as X. rewrite app_nil_r in X. exact X.
Qed.
Lemma GoodItem_2 s a s2 b : Good 0 s a -> Good 0 s2 b -> GoodItem (s ++ u ":" ++ s2) (PSlice (Some a) (Some b) None).
Proof.
  intros (ts & A & B & C & D) (ts2 & A2 & B2 & C2 & D2). exists (ts ++ colon :: ts2). split; [apply Lx_colon; assumption|apply Item_slice2; assumption].
Qed.
Lemma GoodItem_3 s a s2 b s3 c : Good 0 s a -> Good 0 s2 b -> Good 0 s3 c ->
  GoodItem (s ++ u ":" ++ s2 ++ u ":" ++ s3) (PSlice (Some a) (Some b) (Some c)).
Proof.
  intros (ts & A & B & C & D) (ts2 & A2 & B2 & C2 & D2) (ts3 & A3 & B3 & C3 & D3). exists (ts ++ colon :: ts2 ++ colon :: ts3).
  split; [apply Lx_colon; [exact A|]; apply Lx_colon; assumption|apply Item_slice3; assumption].
Qed.
Lemma GoodItems_join xs ts : xs <> [] -> Forall2 GoodItem xs ts -> GoodItems (joinc xs) ts.
Proof.
  intros N F. induction F as [|x t xs ts (js & A & B) F IH]; [congruence|]. destruct F as [|x2 t2 xs ts G2 F].
  - exists js. split; [exact A|apply Items_one, B].
  - rewrite joinc_cons. destruct (IH ltac:(discriminate)) as (js2 & E & G). exists (js ++ TOp (u ",") :: js2).
    split; [apply Lx_comma; assumption|apply Items_cons; assumption].
Qed.
Lemma GoodA_sub x t s l : l <> [] -> Good 10 x t -> GoodItems s l -> GoodA (x ++ u "[" ++ s ++ u "]") (PSub t l).
Proof.
  intros NL (tx & A & B & C & D) (js & E & F). exists (tx ++ TOp (u "[") :: js ++ [TOp (u "]")]). repeat split.
  - intros rest. rewrite <- !app_assoc. rewrite A; [|reflexivity]. f_equal.
    change (lex LIdle (u "[" ++ s ++ u "]" ++ rest)) with (TOp (u "[") :: lex LIdle (s ++ u "]" ++ rest)).
    rewrite E; [|reflexivity]. cbn [app]. rewrite <- app_assoc. reflexivity.
  - apply start_app, B.
  - apply hdok_app, C.
  - apply Rd_sub; assumption.
Qed.
Lemma Good_sub x t s l : l <> [] -> Good 10 x t -> GoodItems s l -> Good 10 (x ++ u "[" ++ s ++ u "]") (PSub t l).
Proof. intros A B C. apply GoodA_Good, GoodA_sub; assumption. Qed.
(** Tables *)
Definition GoodPair (s : str) (ab : py * py) : Prop :=
  exists x y, s = x ++ u ":" ++ y /\ Good 0 x (fst ab) /\ Good 0 y (snd ab).
Lemma GoodA_dict xs l : Forall2 GoodPair xs l -> GoodA (u "{" ++ joinc xs ++ u "}") (PDict (flat_map (fun ab => [fst ab; snd ab]) l)).
Proof.
  intros F. assert (exists js, Lx (joinc xs) js /\ Dict js (flat_map (fun ab => [fst ab; snd ab]) l)) as (js & E & G).
  { induction F as [|s [a b] xs l (x & y & -> & (tx & A1 & A2 & A3 & A4) & (ty & B1 & B2 & B3 & B4)) F IH].
    - exists []. split; [apply La_Lx, La_nil|apply Dict_nil].
    - cbn [fst snd] in *. destruct F as [|s2 ab2 xs l G2 F].
      + exists (tx ++ colon :: ty). split; [apply Lx_colon; assumption|]. apply Dict_one; assumption.
      + destruct IH as (js & E & G). rewrite joinc_cons. exists (tx ++ colon :: ty ++ TOp (u ",") :: js). split.
        * pose proof (Lx_comma _ _ _ _ (Lx_colon _ _ _ _ A1 B1) E) as X. assert (T : tx ++ colon :: ty ++ TOp (u ",") :: js = (tx ++ colon :: ty) ++ TOp (u ",") :: js) by (rewrite <- app_assoc; reflexivity).
          rewrite T. exact X.
        * change (flat_map (fun ab => [fst ab; snd ab]) ((a, b) :: ab2 :: l)) with (a :: b :: flat_map (fun ab => [fst ab; snd ab]) (ab2 :: l)).
          apply Dict_cons; assumption. }
  exists (TOp (u "{") :: js ++ [TOp (u "}")]). repeat split.
  - intros rest. rewrite <- !app_assoc.
    change (lex LIdle (u "{" ++ joinc xs ++ u "}" ++ rest)) with (TOp (u "{") :: lex LIdle (joinc xs ++ u "}" ++ rest)).
    rewrite E; [|reflexivity]. cbn [app]. f_equal. rewrite <- app_assoc. reflexivity.
  - apply Rd_dict, G.
Qed.

(** A text that is one name is that name. *)
Lemma Good_ident s t : Good 10 s t -> identifier s = true -> t = PName s.
Proof.
  intros (ts & A & B & C & D) I. apply identifier_name in I as [N K].
  assert (ts = [TName s]) as ->.
  { pose proof (A [] Logic.I) as X. pose proof (Lx_name s N [] Logic.I) as Y. rewrite X in Y. cbn [lex lend app] in Y. rewrite !app_nil_r in Y. exact Y. }
  assert (X : reads (GE 10) ([TName s] ++ []) ([t], [])) by (apply Rd_reads; [lia|exact D|exact Logic.I]).
  assert (Y : reads (GE 10) ([TName s] ++ []) ([PName s], [])) by (apply Rd_reads; [lia|apply Rd_name, K|exact Logic.I]).
  pose proof (reads_det _ _ _ _ X Y) as E. congruence.
Qed.
Lemma Good_Reads s t : Good 0 s t -> Reads s t.
Proof.
  intros (ts & A & B & C & D). unfold Reads, tokens. pose proof (A [] Logic.I) as X. rewrite app_nil_r in X. rewrite X.
  apply Rd_reads; [lia|exact D|exact Logic.I].
Qed.
