(** C120: the methods of a dictionary are translated one by one.  C121: its functions are
    loaded one after the other. *)
From Coq Require Import String Ascii List NArith PeanoNat Bool Lia.
From Verif Require Import PyBase PyFacts StarBlockModel ValidateModel TreeModel LexModel LexSpec PropertiesLex DrelModel SentenceModel SentenceSpec PropertiesSentence TransformModel TransformSpec TransformProofs TransformProofs2 TransformProofs3.
Import ListNotations.
Open Scope nat_scope.

(** ** C120 *)
(** Either every definition gets the translations of its own methods, or the translation
    stops at a definition: those before it are done, it and those behind it are as they
    were. *)
Theorem C120_all make d st d' st' : s_depth st = 0 -> transform make d st = (d', Ret st') -> Forall2 (done make) d d' /\ s_depth st' = 0.
Proof. intros D E. pose proof (transform_spec make d st D) as H. now rewrite E in H. Qed.
Theorem C120_stops make d st d' x : s_depth st = 0 -> transform make d st = (d', Raise x) ->
  exists d1 d1' k t d2, d = d1 ++ (k, t) :: d2 /\ d' = d1' ++ (k, t) :: d2 /\ Forall2 (done make) d1 d1' /\ stopped_at (make k) t x.
Proof. intros D E. pose proof (transform_spec make d st D) as H. now rewrite E in H. Qed.
Theorem C120_succeeds make d st : s_depth st = 0 ->
  (forall k t, In (k, t) d -> has_methods t -> exists l ts, methods_of t l /\ translations (make k (is_category t)) l ts) ->
  exists d' st', transform make d st = (d', Ret st').
Proof. exact (transform_succeeds make d st). Qed.
(** The translations of a list of methods are determined by it. *)
Theorem C120_one make l ts ts' : translations make l ts -> translations make l ts' -> ts = ts'.
Proof. intros T. exact (translations_fun make l ts T ts'). Qed.
Theorem C120_not_both make l ts x : translations make l ts -> ~ stopped make l x.
Proof. intros T. exact (translations_stopped make l ts T x). Qed.
(** Whether a text is a method does not depend on what was read before. *)
Theorem C120_parse st s l : s_depth st = 0 -> (exists st', parse st (method_text s) = Ret (l, st') /\ s_depth st' = 0) <-> is_method s l.
Proof.
  intros D. rewrite is_method_text. split; [intros (st' & E & _); now apply parse_ret in E|exact (parse_stands st _ l D)].
Qed.
(** A method that is read says what its tokens say, and the other way round. *)
Theorem C120_says s l : is_method s l -> exists t ts, parsed_text s t /\ reads 0 t ts 0 /\ method_says false l ts.
Proof.
  intros (t & P & ts & d & R & M). exists t, ts. split; [exact P|]. split; [|now apply C119_sound].
  pose proof (method_even _ _ M) as E. apply (C99_exact fresh) in R as R2. destruct R2 as (st & L & Dd). pose proof (C100_balance _ _ _ _ L) as B. change (s_depth fresh) with 0 in *. assert (d = 0) as -> by lia. exact R.
Qed.
Theorem C120_found s t ts d l : parsed_text s t -> reads 0 t ts d -> method_says true l ts -> is_method s l.
Proof. intros P R M. exists t. split; [exact P|]. exists ts, d. split; [exact R|now apply C119_complete]. Qed.
(** The text that is parsed is determined; for a text whose only ends of lines are
    newlines it is the text itself with a newline at its end. *)
Theorem C120_text_one s t t' : parsed_text s t -> parsed_text s t' -> t = t'.
Proof. exact (parsed_text_fun s t t'). Qed.
Lemma unified_plain s : (forall c, In c s -> break c -> c = 10%N) -> unified s s.
Proof.
  induction s as [|c s IH]; intros H; [constructor|]. assert (unified s s) as U by (apply IH; intros x I; apply H; now right).
  destruct (is_break c) eqn:B.
  - apply is_break_spec in B. assert (c = 10%N) as -> by (apply H; [now left|exact B]). apply unified_break; [exact B|discriminate|exact U].
  - apply is_break_false in B. now apply unified_char.
Qed.
Theorem C120_text_plain s : (forall c, In c s -> break c -> c = 10%N) -> parsed_text s (if (last s 0 =? 10)%N then s else s ++ [10%N]).
Proof.
  intros H. exists s. split; [now apply unified_plain|]. destruct (N.eqb_spec (last s 0%N) 10) as [E|E].
  - left. split; [intros ->; discriminate E|]. split; [rewrite E; unfold break; lia|reflexivity].
  - right. split; [|reflexivity]. destruct s as [|c r]; [now left|right]. intros B. apply E. apply H; [|exact B].
    destruct (exists_last (l := c :: r)) as (q & y & Q); [discriminate|]. rewrite Q, last_last. apply in_elt.
Qed.

(** A dictionary with a loop category. *)
Definition core : env :=
  Env None [(u "atom", [u "id"])] (fun c a => Ret (u "_" ++ c ++ u "." ++ a))
      (fun _ => u "{'_atom.id', '_atom.x'}") (fun _ => Ret (u "_atom.id")).
Definition t_ (s : string) : value := VStr (u s).
Definition item_def (purposes exprs : list value) : table := [(u "_method.purpose", VList purposes); (u "_method.expression", VList exprs); (u "_name.category_id", t_ "atom")].
Definition eval : value := t_ "Evaluation".
Definition open_text : value := t_ "_atom.z = f((1".
Definition good : value := t_ "_atom.y = (2)".
Definition two : defs :=
  [(u "_atom.z", item_def [t_ "Definition"; eval; eval] [t_ "a"; open_text; t_ "_atom.z = (2)"]); (u "_atom.w", [(u "_name.category_id", t_ "atom")]); (u "_atom.y", item_def [eval] [good])].
(** A method that leaves two parentheses open does not disturb those behind it. *)
Example C120_meets : exists d' st' t, transform (make_body core) two fresh = (d', Ret st') /\ parse fresh (method_text (u "_atom.z = f((1")) = Raise SyntaxErr
  /\ map (fun kt => tget a_python (snd kt)) d' = [Some (VList [VStr t]); None; Some (VList [VStr t])] .
Proof. do 3 eexists. split; [vm_compute; reflexivity|]. split; vm_compute; reflexivity. Qed.
Definition bad_def : table := item_def [eval] [t_ "loop q as bond _atom.y = 1"].
Example C120_meets_stops : exists d', transform (make_body core) ([(u "_atom.y", item_def [eval] [good]); (u "_atom.z", bad_def)] ++ [(u "_atom.w", item_def [eval] [good])]) fresh = (d', Raise CifErr)
  /\ map (fun kt => match tget a_python (snd kt) with Some _ => true | None => false end) d' = [true; false; false].
Proof. eexists. split; vm_compute; reflexivity. Qed.
Example C120_meets_text : parsed_text ([97; 13; 10; 98; 13; 99]%N) [97; 10; 98; 10; 99; 10]%N.
Proof. exact (parsed_method_text [97; 13; 10; 98; 13; 99]%N). Qed.
Lemma reads_method s l : match parse fresh (method_text s) with Ret (a, _) => a = l | Raise _ => False end -> is_method s l.
Proof. intros H. destruct (parse fresh (method_text s)) as [[a st]|] eqn:E; [|destruct H]. subst a. apply (C120_parse fresh); [reflexivity|]. exists st. split; [exact E|]. now apply parse_ret in E. Qed.
Example C120_meets_method : exists l, is_method (u "_atom.y = (2)") l /\ length l = 1.
Proof. eexists. split; [apply reads_method; vm_compute; reflexivity|reflexivity]. Qed.

(** One method that is read but not translated stops the loading of the dictionary, while
    one that is not read is left out: here a loop over a category that has no loops. *)
Theorem C120_stop_refuted : exists d s l k, In (k, item_def [eval] [VStr s]) d /\ is_method s l /\ make_body core k false l = Raise CifErr
  /\ (exists k2 s2 l2 t2, In (k2, item_def [eval] [VStr s2]) d /\ is_method s2 l2 /\ make_body core k2 false l2 = Ret t2)
  /\ transform (make_body core) d fresh = (d, Raise CifErr).
Proof.
  exists [(u "_atom.z", bad_def); (u "_atom.y", item_def [eval] [good])]. exists (u "loop q as bond _atom.y = 1"). eexists. exists (u "_atom.z"). split; [now left|].
  split; [apply reads_method; vm_compute; reflexivity|]. split; [vm_compute; reflexivity|]. split; [|vm_compute; reflexivity].
  exists (u "_atom.y"), (u "_atom.y = (2)"). do 2 eexists. split; [right; now left|]. split; [apply reads_method; vm_compute; reflexivity|vm_compute; reflexivity].
Qed.
(** A method in a definition whose name has no period, or two, and which is not said to be
    a category, stops it as well (getcatname uses a variable without a value). *)
Theorem C120_name_refuted : exists k k2 l, is_method (u "_atom.y = (2)") l /\ ~ In 46%N k /\ make_body core k false l = Raise NameErr /\ make_body core k2 false l = Raise NameErr
  /\ (exists t, make_body core k true l = Ret t) /\ transform (make_body core) [(k, item_def [eval] [good])] fresh = ([(k, item_def [eval] [good])], Raise NameErr).
Proof.
  exists (u "atom"), (u "_atom.y.z"). eexists. split; [apply reads_method; vm_compute; reflexivity|]. split; [cbn; intuition discriminate|].
  split; [vm_compute; reflexivity|]. split; [vm_compute; reflexivity|]. split; [eexists; vm_compute; reflexivity|vm_compute; reflexivity].
Qed.
(** A text constant with a form feed in it gets a newline instead, and a short one makes
    the method unreadable. *)
Theorem C120_break_refuted : exists s s2 l l' l2, stands_for (s ++ [10%N]) l /\ is_method s l' /\ l' <> l
  /\ stands_for (s2 ++ [10%N]) l2 /\ forall a, ~ is_method s2 a.
Proof.
  exists (u "a = '''x" ++ [12%N] ++ u "y'''"), (u "a = 'x" ++ [12%N] ++ u "y'"). do 3 eexists.
  assert (forall s l, match parse fresh s with Ret (a, _) => a = l | Raise _ => False end -> stands_for s l) as H.
  { intros s l H. destruct (parse fresh s) as [[a st]|] eqn:E; [|destruct H]. subst a. now apply parse_ret in E. }
  split; [apply H; vm_compute; reflexivity|]. split; [apply reads_method; vm_compute; reflexivity|]. split; [discriminate|]. split; [apply H; vm_compute; reflexivity|].
  intros a M. apply is_method_text in M. assert (parse fresh (method_text (u "a = 'x" ++ [12%N] ++ u "y'")) = Raise SyntaxErr) as E by (vm_compute; reflexivity). exact (parse_raise fresh _ _ a eq_refl E M).
Qed.
(** With fewer purposes than texts the last texts are left out without a word; with one
    purpose for several texts all are. *)
Theorem C120_purposes_refuted : exists s1 s2 l1 l2 d' st' t, is_method s1 l1 /\ is_method s2 l2
  /\ transform (make_body core) [(u "_atom.y", item_def [eval] [VStr s1; VStr s2])] fresh = (d', Ret st') /\ map (fun kt => tget a_python (snd kt)) d' = [Some (VList [VStr t])]
  /\ let d := [(u "_atom.y", [(u "_method.purpose", eval); (u "_method.expression", VList [VStr s1; VStr s2])])] in transform (make_body core) d fresh = (d, Ret fresh).
Proof.
  exists (u "_atom.y = (2)"), (u "_atom.y = 3"). do 5 eexists. split; [apply reads_method; vm_compute; reflexivity|]. split; [apply reads_method; vm_compute; reflexivity|].
  split; [vm_compute; reflexivity|]. split; [vm_compute; reflexivity|]. vm_compute. reflexivity.
Qed.

(** ** C121 *)
Definition read_as (make : value -> list cs -> outcome str) (ns : value * str) (a : list cs) (t : str) : Prop := is_function (snd ns) a /\ make (fst ns) a = Ret t.
Lemma loaded_cases make f l g g' : loaded make l g g' ->
  (forall ns, In ns l -> exists a t, read_as make ns a t) /\
  ((exists l1 ns l2 a t, l = l1 ++ ns :: l2 /\ read_as make ns a t /\ defines a f /\ (forall ns2 a2 t2, In ns2 l2 -> read_as make ns2 a2 t2 -> ~ defines a2 f) /\ dget str_eqb f g' = Some t)
   \/ ((forall ns a t, In ns l -> read_as make ns a t -> ~ defines a f) /\ dget str_eqb f g' = dget str_eqb f g)).
Proof.
  induction 1 as [g|ns a t r g g' H L [IHa IH]].
  - split; [intros ns []|]. right. split; [intros ns a t []|reflexivity].
  - split; [intros ns0 [<- | I]; [exists a, t; exact H|now apply IHa]|].
    destruct IH as [(l1 & ns1 & l2 & a1 & t1 & -> & R & Df & N & E) | [N E]].
    + left. exists (ns :: l1), ns1, l2, a1, t1. repeat split; try assumption; apply R.
    + destruct (in_dec (list_eq_dec N.eq_dec) f (defined a)) as [I|I].
      * left. exists [], ns, r, a, t. split; [reflexivity|]. split; [exact H|]. split; [now apply defined_spec|]. split; [exact N|]. rewrite E. now apply set_all_in.
      * right. split; [|rewrite E; now apply set_all_out]. intros ns0 a0 t0 [<- | J] R; [|exact (N ns0 a0 t0 J R)]. rewrite <- defined_spec.
        destruct R as [R _], H as [H _]. apply is_function_text in R, H. destruct (parse_stands fresh _ _ eq_refl R) as (b & B & _), (parse_stands fresh _ _ eq_refl H) as (b0 & B0 & _).
        assert (a0 = a) as -> by congruence. exact I.
Qed.
(** If nothing fails every function was read and translated, a name has the text of the
    last function that defines it, and other names are as they were. *)
Theorem C121_all make d st g g' st' : s_depth st = 0 -> add_drel_funcs make d st g = (g', Ret st') -> exists l, function_defs d l /\
  (forall ns, In ns l -> exists a t, read_as make ns a t) /\
  forall f, (exists l1 ns l2 a t, l = l1 ++ ns :: l2 /\ read_as make ns a t /\ defines a f /\ (forall ns2 a2 t2, In ns2 l2 -> read_as make ns2 a2 t2 -> ~ defines a2 f) /\ dget str_eqb f g' = Some t)
   \/ ((forall ns a t, In ns l -> read_as make ns a t -> ~ defines a f) /\ dget str_eqb f g' = dget str_eqb f g).
Proof.
  intros D E. unfold add_drel_funcs in E. destruct (function_list d) as [l|] eqn:F; [|discriminate]. exists l. split; [now apply function_list_spec|].
  pose proof (add_functions_spec make l st g D) as H. rewrite E in H. destruct H as [L _]. split; [exact (proj1 (loaded_cases make [] _ _ _ L))|]. intros f. exact (proj2 (loaded_cases make f _ _ _ L)).
Qed.
(** What fails is a definition without its name or text, or a function that can not be
    read or translated; no function behind it is loaded. *)
Theorem C121_stops make d st g g' x : s_depth st = 0 -> add_drel_funcs make d st g = (g', Raise x) ->
  (g' = g /\ forall l, ~ function_defs d l) \/
  exists l1 ns l2, function_defs d (l1 ++ ns :: l2) /\ (forall ns1, In ns1 l1 -> exists a t, read_as make ns1 a t) /\
    (((forall a, ~ is_function (snd ns) a) /\ x = SyntaxErr) \/ exists a, is_function (snd ns) a /\ make (fst ns) a = Raise x) /\
    forall f, (forall ns1 a t, In ns1 l1 -> read_as make ns1 a t -> ~ defines a f) -> dget str_eqb f g' = dget str_eqb f g.
Proof.
  intros D E. unfold add_drel_funcs in E. destruct (function_list d) as [l|y] eqn:F.
  - right. pose proof (add_functions_spec make l st g D) as H. rewrite E in H. destruct H as (l1 & ns & l2 & -> & L & R). exists l1, ns, l2. split; [now apply function_list_spec|].
    split; [exact (proj1 (loaded_cases make [] _ _ _ L))|]. split; [exact R|]. intros f. exact (loaded_out make f _ _ _ L).
  - injection E as <- <-. left. split; [reflexivity|]. intros l H. apply function_list_spec in H. congruence.
Qed.
Theorem C121_defs d l l' : function_defs d l -> function_defs d l' -> l = l'.
Proof. intros H H'. apply function_list_spec in H, H'. congruence. Qed.

Definition func_def (name : string) (text : string) : table := [(u "_name.category_id", t_ "function"); (u "_name.object_id", t_ name); (u "_method.purpose", VList [eval]); (u "_method.expression", VList [t_ text])].
Definition sq : table := func_def "sq" "function sq(x:[Single,Real]) { sq = x * x
}".
Definition names_in (g : globals) : list str := map fst g.
Example C121_meets : exists g' st', add_drel_funcs (make_def core) [(u "f.sq", sq); (u "_atom.y", item_def [eval] [good])] fresh [(u "listify", [])] = (g', Ret st') /\ names_in g' = [u "listify"; u "sq"].
Proof. do 2 eexists. split; vm_compute; reflexivity. Qed.
Example C121_meets_stops : exists g', add_drel_funcs (make_def core) [(u "f.sq", sq); (u "f.b", func_def "b" "function b("); (u "f.c", sq)] fresh [] = (g', Raise SyntaxErr) /\ names_in g' = [u "sq"].
Proof. eexists. split; vm_compute; reflexivity. Qed.
Lemma reads_function s l : match parse fresh (function_text s) with Ret (a, _) => a = l | Raise _ => False end -> is_function s l.
Proof. intros H. apply is_function_text. destruct (parse fresh (function_text s)) as [[a st]|] eqn:E; [|destruct H]. subst a. now apply parse_ret in E. Qed.
(** No newline is put at the end of a function's text, as it is for a method: a function
    that ends without a brace is refused, and all those behind it are lost. *)
Theorem C121_newline_refuted : exists s l d g, is_method s l /\ In (u "f.sq", sq) d /\ (forall a, ~ is_function s a)
  /\ add_drel_funcs (make_def core) d fresh g = (g, Raise SyntaxErr) /\ exists l2 t, is_function (u "function sq(x:[Single,Real]) { sq = x * x
}") l2 /\ make_def core (t_ "sq") l2 = Ret t.
Proof.
  exists (u "function id(x:[Single,Real]) id = x"). eexists. exists [(u "f.id", func_def "id" "function id(x:[Single,Real]) id = x"); (u "f.sq", sq)], []. split; [apply reads_method; vm_compute; reflexivity|]. split; [right; now left|]. split.
  - intros a H. apply is_function_text in H. assert (parse fresh (function_text (u "function id(x:[Single,Real]) id = x")) = Raise SyntaxErr) as E by (vm_compute; reflexivity). exact (parse_raise fresh _ _ a eq_refl E H).
  - split; [vm_compute; reflexivity|]. do 2 eexists. split; [apply reads_function; vm_compute; reflexivity|vm_compute; reflexivity].
Qed.
(** A function whose method is not in a loop can not be loaded, while the method of an
    item may be single. *)
Theorem C121_single_refuted : exists d st' d', add_drel_funcs (make_def core) d fresh [] = ([], Raise KeyErr)
  /\ (exists t s l x, map snd d = [t] /\ tget a_purpose t = Some eval /\ tget a_expr t = Some (VStr s) /\ is_function s l /\ make_def core (t_ "sq") l = Ret x)
  /\ (exists k t, transform (make_body core) [(k, t)] fresh = (d', Ret st') /\ tget a_purpose t = Some eval /\ tget a_expr t = Some good) /\ map (fun kt => match tget a_python (snd kt) with Some _ => true | None => false end) d' = [true].
Proof.
  exists [(u "f.sq", [(u "_name.category_id", t_ "function"); (u "_name.object_id", t_ "sq"); (u "_method.purpose", eval); (u "_method.expression", t_ "function sq(x:[Single,Real]) { sq = x * x
}")])].
  do 2 eexists. split; [vm_compute; reflexivity|]. split.
  - do 4 eexists. split; [reflexivity|]. split; [vm_compute; reflexivity|]. split; [reflexivity|]. split; [apply reads_function; vm_compute; reflexivity|vm_compute; reflexivity].
  - split; [exists (u "_atom.y"), [(u "_method.purpose", eval); (u "_method.expression", good)]; split; [vm_compute; reflexivity|split; vm_compute; reflexivity]|vm_compute; reflexivity].
Qed.
(** The functions are put among those of the module itself: one called transpose replaces
    the module's own.  The name is the one in the text, not the name of the definition. *)
Theorem C121_replace_refuted : exists d g own t g' st', dget str_eqb (u "transpose") g = Some own /\ add_drel_funcs (make_def core) d fresh g = (g', Ret st')
  /\ dget str_eqb (u "transpose") g' = Some t /\ t <> own /\ map (fun kt => tget (u "_name.object_id") (snd kt)) d = [Some (t_ "other")] /\ dget str_eqb (u "other") g' = None.
Proof.
  exists [(u "f.other", func_def "other" "function transpose(x:[Single,Real]) { transpose = x
}")], [(u "transpose", u "def transpose(base_list): ...")]. do 4 eexists.
  split; [vm_compute; reflexivity|]. split; [vm_compute; reflexivity|]. split; [vm_compute; reflexivity|]. split; [discriminate|]. split; vm_compute; reflexivity.
Qed.

Definition transform_theorems := (C120_all, C120_stops, C120_succeeds, C120_one, C120_not_both, C120_parse, C120_says, C120_found, C120_text_one, C120_text_plain, C120_stop_refuted, C120_name_refuted, C120_break_refuted, C120_purposes_refuted,
  C121_all, C121_stops, C121_defs, C121_newline_refuted, C121_single_refuted, C121_replace_refuted).
Print Assumptions transform_theorems.
