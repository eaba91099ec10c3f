(** Reading items that a dictionary can derive (DeriveModel), in the terms of DeriveSpec. *)
From Coq Require Import String Ascii List NArith ZArith Bool PeanoNat Lia.
From Verif Require Import PyBase PyFacts StarBlockModel StarBlockSpec StarBlockProofs2 LoopModel ValidateModel TreeModel DeriveModel DeriveSpec DeriveProofs DeriveProofs2 DeriveProofs3 DeriveProofs4 DeriveProofs5 DeriveProofs6 DeriveSpec2 DeriveProofs7.
Import ListNotations.
Open Scope string_scope. Open Scope list_scope. Open Scope nat_scope.

(** ** A dictionary and blocks for the examples *)
Definition t (s : string) : value := VStr (u s).
Definition item (cat : string) (more : list (string * value)) : table :=
  (u "_name.category_id", t cat) :: map (fun av => (u (fst av), snd av)) more.
Definition category (cls : string) : table := [(u "_definition.scope", t "Category"); (u "_definition.class", t cls); (u "_name.category_id", t "top")].
Definition same_value (_ : str) (v : value) : outcome value := Ret v.
Definition method_table (l : list (string * list prog)) (k : str) : list prog :=
  match find (fun a => str_eqb (u (fst a)) k) l with Some (_, p) => p | None => [] end.
(** A dictionary whose categories are not built from others. *)
Definition plain_dd (l : defs) (m : str -> list prog) (c : str -> value -> outcome value) : ddict := mkDD l m c (fun _ _ => Raise KeyErr) (fun l => l) Ret.
Definition crystal : ddict := plain_dd
  [(u "cell", category "Set"); (u "atom", category "Loop"); (u "top", category "Set");
   (u "_cell.a", item "cell" [("_alias.definition_id", VList [t "_cell_length_a"; t "_a_old"])]);
   (u "_cell.b", item "cell" [("_enumeration.default", t "1")]);
   (u "_cell.volume", item "cell" []);
   (u "_cell.density", item "cell" []);
   (u "_atom.id", item "atom" [("_type.purpose", t "Key")]);
   (u "_atom.charge", item "atom" [("_enumeration.default", t "0")])]
  (method_table [("_cell.volume", [Ask (u "_cell.a") (fun v => Ask (u "_cell.b") (fun w => Done (VList [v; w])))]);
                 ("_cell.density", [Ask (u "_cell.mass") (fun v => Done v); Ask (u "_cell.volume") (fun v => Done v)])])
  same_value.
Definition block_of (l : list (string * value)) : block := run_ops (map (fun kv => OAdd (u (fst kv)) (snd kv)) l) (empty_block true 0 false).
Definition cell_block : block := block_of [("_cell.a", t "5")].
Definition atoms : block := run_ops [OAdd (u "_atom.id") (VList [t "A"; t "B"; t "C"]); OCreate [u "_atom.id"] (-1)] cell_block.
Definition fuel (d : ddict) (L : list str) (key : str) : nat := S (length (key :: dict_names d ++ L)).
Definition asked : list str := [u "_cell.a"; u "_cell.b"; u "_cell.mass"; u "_cell.volume"].

Lemma crystal_asks : methods_ask crystal asked.
Proof.
  intros k p. unfold crystal, plain_dd, dd_methods, method_table. cbn [find fst]. destruct (str_eqb (u "_cell.volume") k).
  - intros [<-|[]]. cbn. tauto.
  - destruct (str_eqb (u "_cell.density") k); [|intros []]. intros [<-|[<-|[]]]; cbn; tauto.
Qed.
Lemma crystal_apart : categories_apart crystal.
Proof.
  intros k tt c tc I E. cbn [crystal plain_dd dd_defs In] in I.
  repeat (destruct I as [I|I]; [injection I as <- <-; vm_compute in E; injection E as <-; intros D; vm_compute in D; injection D as <-; eexists; split; [reflexivity|]; intros X; vm_compute in X; discriminate X|]). contradiction.
Qed.
Lemma atoms_wf : WF atoms.
Proof. apply run_ops_wf; [apply run_ops_wf; [apply empty_wf|repeat constructor]|]. repeat constructor. intros []. Qed.

(** * C79: reading ends *)
(** However the methods and defaults of a dictionary refer to each other, the nesting of
    derivations is bounded by the number of names. *)
Theorem C79_ends : forall d L cache provide key b, methods_ask d L -> objects_in d L -> snd (read (S (length (key :: dict_names d ++ L))) d cache provide key b) <> Err XFuel.
Proof. intros. now apply read_ends. Qed.
(** A larger bound changes nothing. *)
Theorem C79_bound_free : forall n m d cache provide key b, n <= m -> snd (read n d cache provide key b) <> Err XFuel -> read m d cache provide key b = read n d cache provide key b.
Proof. intros n m d cache provide key b L N. destruct (read_more n m d cache provide key L b) as [E|E]; [contradiction|now symmetry]. Qed.
Example C79_meets : methods_ask crystal asked /\ objects_in crystal asked /\ snd (read (fuel crystal asked (u "_cell.volume")) crystal true true (u "_cell.volume") cell_block) = Ok (VList [t "5"; t "1"]).
Proof. split; [exact crystal_asks|]. split; [discriminate|vm_compute; reflexivity]. Qed.
(** Two methods that ask for each other. *)
Definition circle : ddict := plain_dd [(u "c", category "Set"); (u "_c.x", item "c" []); (u "_c.y", item "c" [])]
  (method_table [("_c.x", [Ask (u "_c.y") Done]); ("_c.y", [Ask (u "_c.x") Done])]) same_value.
Example C79_circle : methods_ask circle [u "_c.x"; u "_c.y"] /\ snd (read (fuel circle [u "_c.x"; u "_c.y"] (u "_c.x")) circle true true (u "_c.x") (block_of [])) = Err (XPy KeyErr).
Proof.
  split; [|vm_compute; reflexivity]. intros k p. unfold circle, plain_dd, dd_methods, method_table. cbn [find fst]. destruct (str_eqb (u "_c.x") k); [|destruct (str_eqb (u "_c.y") k)]; [intros [<-|[]]; cbn; tauto|intros [<-|[]]; cbn; tauto|intros []].
Qed.

(** * C80: reading loses nothing *)
Theorem C80_well_formed : forall n d cache provide key b, WF b -> WF (fst (read n d cache provide key b)).
Proof. intros. now apply read_wf. Qed.
(** Only items that the dictionary defines are added. *)
Theorem C80_adds_defined : forall n d cache provide key b, WF b -> forall k, In k (b_keys (fst (read n d cache provide key b))) -> In k (b_keys b) \/ In k (map fst (dd_defs d)).
Proof. intros n d cache provide key b W. now apply read_adds. Qed.
(** What was in the block has the same value, spelling and loop afterwards. *)
Theorem C80_kept_partial : forall n d cache provide key b, WF b -> no_questions b -> categories_apart d -> kept b (fst (read n d cache provide key b)).
Proof. intros. now apply read_keeps. Qed.
Lemma atoms_known : no_questions atoms.
Proof.
  intros k v f G. unfold get_full in G. destruct (dget str_eqb (lower k) (b_data atoms)) as [e|] eqn:E; [|discriminate]. apply (dget_In str_eqb str_eqb_spec) in E.
  vm_compute in E. destruct E as [E|[E|[]]]; injection E as E1 E2; subst e; vm_compute in G; injection G as <- _; (split; [vm_compute; discriminate|]); intros l [L|L]; vm_compute in L; try discriminate L; injection L as <-; right; eexists; (split; [left; reflexivity|vm_compute; discriminate]).
Qed.
Example C80_meets : WF atoms /\ no_questions atoms /\ categories_apart crystal /\ b_keys (fst (read 30 crystal true true (u "_atom.charge") atoms)) = b_keys atoms ++ [u "_atom.charge"].
Proof. split; [exact atoms_wf|]. split; [exact atoms_known|]. split; [exact crystal_apart|vm_compute; reflexivity]. Qed.
(** A method that asks for an item whose value is a question mark removes it from the
    block, also if nothing can be derived. *)
Theorem C80_kept_refuted : exists d b key k, WF b /\ categories_apart d /\ has_key k b = true /\
  snd (read 30 d true true key b) = Err (XPy KeyErr) /\ has_key k (fst (read 30 d true true key b)) = false.
Proof.
  exists crystal, (block_of [("_cell.a", t "?")]), (u "_cell.volume"), (u "_cell.a").
  split; [apply run_ops_wf; [apply empty_wf|repeat constructor]|]. split; [exact crystal_apart|]. vm_compute. auto.
Qed.
(** A question mark for an item with a default is replaced by the default in the block,
    but what is returned is the question mark. *)
Theorem C80_default_returned_refuted : exists d b b' key v, WF b /\ get_item key b = Ret question /\
  read 30 d true true key b = (b', Ok question) /\ get_item key b' = Ret v /\ v <> question.
Proof.
  exists crystal, (block_of [("_cell.b", t "?")]), (fst (read 30 crystal true true (u "_cell.b") (block_of [("_cell.b", t "?")]))), (u "_cell.b"), (t "1").
  split; [apply run_ops_wf; [apply empty_wf|repeat constructor]|]. split; [vm_compute; reflexivity|]. split; [vm_compute; reflexivity|]. split; [vm_compute; reflexivity|]. vm_compute. discriminate.
Qed.
Definition short_column : ddict := plain_dd [(u "atom", category "Loop"); (u "_atom.id", item "atom" []); (u "_atom.x", item "atom" [])]
  (method_table [("_atom.x", [Done (VList [t "1"; t "2"])])]) same_value.
(** A derived column that has not as many values as its category has rows is refused
    with an error, but stays in the block outside the loop. *)
Theorem C80_all_or_nothing_refuted : exists d b key, WF b /\ has_key key b = false /\ snd (read 30 d true true key b) = Err (XPy StarLengthErr) /\
  has_key key (fst (read 30 d true true key b)) = true /\ find_loop key (fst (read 30 d true true key b)) = None.
Proof. exists short_column, atoms, (u "_atom.x"). split; [exact atoms_wf|]. vm_compute. auto. Qed.

(** An item that is present is read as the specification says; nothing is changed. *)
Theorem C80_present : forall n d cache provide k v b, k <> u "saves" -> shown d provide b k v -> read n d cache provide k b = (b, Ok v).
Proof. exact read_present. Qed.
Example C80_present_meets : shown crystal true cell_block (u "_cell.a") (t "5") /\ shown crystal true (block_of [("_cell.a", VList [t "5"; t "?"])]) (u "_cell.a") (VList [t "5"; t "?"]).
Proof.
  split; [apply (shown_converted _ _ _ _ (t "5")); [vm_compute; reflexivity|reflexivity|split; vm_compute; discriminate|vm_compute; reflexivity]|].
  apply shown_partly; [vm_compute; reflexivity|reflexivity| |]; [intros [N _]; apply N; right; now left|]. exists (t "5"). split; [now left|vm_compute; discriminate].
Qed.

(** * C81: what was derived stays *)
(** The value is that of the first method that has one. *)
Theorem C81_method : forall n d provide key cat ct b before p after v, key <> u "saves" -> has_key key b = false -> never_alias d key -> category_of d key = Ret cat -> def_of d cat = Ret ct -> settled d cat b ->
  (is_loop ct = true -> exists k, In k (cat_names d cat) /\ has_or_alias d k b = true) ->
  dd_methods d (lower key) = before ++ p :: after -> (forall q, In q before -> gives d b q VNone) -> gives d b p v -> v <> VNone -> read (S n) d false provide key b = (b, Ok v).
Proof. exact method_read. Qed.
Definition two_ways : ddict := plain_dd [(u "c", category "Set"); (u "_c.x", item "c" []); (u "_c.y", item "c" []); (u "_c.z", item "c" [])]
  (method_table [("_c.z", [May (u "_c.x") (fun v => match v with Some w => Done w | None => Done VNone end); Ask (u "_c.y") (fun v => Done (VList [v; v])); Done (t "0")])]) same_value.
Example C81_method_meets : exists before p after, dd_methods two_ways (u "_c.z") = before ++ p :: after /\ before <> [] /\ (forall q, In q before -> gives two_ways (block_of [("_c.y", t "2")]) q VNone) /\
  gives two_ways (block_of [("_c.y", t "2")]) p (VList [t "2"; t "2"]) /\ settled two_ways (u "c") (block_of [("_c.y", t "2")]).
Proof.
  eexists [_], _, [_]. split; [vm_compute; reflexivity|]. split; [discriminate|]. split; [intros q [<-|[]]; apply gives_none; [vm_compute; reflexivity|apply gives_done]|].
  split; [|left; exists (u "_c.y"); split; [vm_compute; tauto|vm_compute; reflexivity]]. apply (gives_ask _ _ _ _ (t "2")); [vm_compute; discriminate| |apply gives_done].
  apply (shown_converted _ _ _ _ (t "2")); [vm_compute; reflexivity|reflexivity|split; vm_compute; discriminate|vm_compute; reflexivity].
Qed.
Theorem C81_stored_partial : forall n d provide key cat def b b1 v,
  has_key key b = false -> never_alias d key -> category_of d key = Ret cat -> not_built d cat -> def_of d key = Ret def -> is_item_def def = true ->
  read n d true provide key b = (b1, Ok v) -> empty_list v = false ->
  get_item key b1 = Ret v /\ forall m cache, read m d cache false key b1 = (b1, Ok v).
Proof. intros n d provide key cat def b b1 v K A C M D T R E. assert (get_item key b1 = Ret v) as G by (eapply read_stored; eauto). split; [exact G|]. intros. now apply read_again. Qed.
Example C81_meets : has_key (u "_cell.volume") cell_block = false /\ never_alias crystal (u "_cell.volume") /\ category_of crystal (u "_cell.volume") = Ret (u "cell") /\ not_built crystal (u "cell") /\
  def_of crystal (u "_cell.volume") = Ret (item "cell" []) /\ is_item_def (item "cell" []) = true /\ snd (read 30 crystal true true (u "_cell.volume") cell_block) = Ok (VList [t "5"; t "1"]).
Proof.
  split; [reflexivity|]. split; [split; [vm_compute; reflexivity|]|].
  - intros k v I. vm_compute in I. destruct I as [I|[]]. injection I as <- <-. vm_compute. reflexivity.
  - split; [vm_compute; reflexivity|]. split; [|vm_compute; auto]. split; [reflexivity|]. intros k tb I. cbn [crystal plain_dd dd_defs In] in I.
    repeat (destruct I as [I|I]; [injection I as <- <-; vm_compute; auto|]). contradiction.
Qed.
(** Without rows in its looped category, a value that was calculated is given up for an
    empty list. *)
Theorem C81_calculated_refuted : exists d b key p v, dd_methods d key = [p] /\ (forall ask b', run d ask p b' = (b', Ok v)) /\ v <> VList [] /\ read 30 d true true key b = (b, Ok (VList [])).
Proof.
  exists short_column, (block_of []), (u "_atom.x"), (Done (VList [t "1"; t "2"])), (VList [t "1"; t "2"]). split; [vm_compute; reflexivity|]. split; [reflexivity|]. split; [discriminate|vm_compute; reflexivity].
Qed.

(** * C82: other names *)
(** A defined name asked for, an older name in the block. *)
Theorem C82_old_name : forall n d cache provide key before k after b v,
  key <> u "saves" -> has_key key b = false -> own_aliases d key = before ++ k :: after -> (forall x, In x before -> has_key x b = false) -> plain d provide k v b ->
  read (S n) d cache provide key b = lift (change_type d key v) b.
Proof. intros. eapply alias_old; eauto. Qed.
(** An older name asked for, the defined name in the block. *)
Theorem C82_new_name : forall n d cache provide key key' names b v,
  key <> u "saves" -> has_key key b = false -> alias_of d key key' names -> plain d provide key' v b -> read (S n) d cache provide key b = lift (change_type d key' v) b.
Proof. intros. eapply alias_new; eauto. Qed.
(** An older name asked for, another one in the block. *)
Theorem C82_other_old_name : forall n d cache provide key key' names before k after b v,
  key <> u "saves" -> has_key key b = false -> alias_of d key key' names -> has_key key' b = false -> names_in names = before ++ k :: after -> (forall x, In x before -> has_key x b = false) -> plain d provide k v b ->
  read (S n) d cache provide key b = lift (change_type d key' v) b.
Proof. intros. eapply alias_sibling; eauto. Qed.
(** A name that two definitions claim is an error of the dictionary. *)
Theorem C82_two_definitions : forall n d cache provide key a1 a2 b,
  key <> u "saves" -> has_key key b = false -> (forall k, In k (own_aliases d key) -> has_key k b = false) ->
  In a1 (alias_table d) -> In a2 (alias_table d) -> a1 <> a2 -> name_in key (snd a1) = true -> name_in key (snd a2) = true ->
  read (S n) d cache provide key b = (b, Err (XPy CifErr)).
Proof. intros n d cache provide key a1 a2 b S K O I1 I2 N M1 M2. exact (alias_twice n d cache provide key a1 a2 b S K O I1 I2 N M1 M2). Qed.
Definition old_block : block := block_of [("_a_old", t "6")].
Example C82_meets : own_aliases crystal (u "_cell.a") = [u "_cell_length_a"] ++ u "_a_old" :: [] /\ has_key (u "_cell_length_a") old_block = false /\ plain crystal true (u "_a_old") (t "6") old_block /\
  alias_of crystal (u "_cell_length_a") (u "_cell.a") (VList [t "_cell_length_a"; t "_a_old"]) /\ has_key (u "_cell.a") old_block = false /\ plain crystal false (u "_cell.a") (t "5") cell_block.
Proof.
  split; [vm_compute; reflexivity|]. split; [reflexivity|]. split; [split; [reflexivity|right; reflexivity]|]. split; [|split; [reflexivity|split; [reflexivity|left; reflexivity]]].
  split; [vm_compute; reflexivity|]. split; [vm_compute; constructor; [intros []|constructor]|]. split; [vm_compute; auto|]. split; [vm_compute; reflexivity|]. intros a I _. vm_compute in I. destruct I as [I|[]]. symmetry. exact I.
Qed.
Definition one_alias : ddict := plain_dd [(u "cell", category "Set"); (u "_cell.a", item "cell" [("_alias.definition_id", t "_cell_length_a")])] (fun _ => []) same_value.
(** An alias that stands outside a loop is a text, and a text is taken by its
    characters: the older name is not found. *)
Theorem C82_single_alias_refuted : exists d key old b v, tget (u "_alias.definition_id") (item "cell" [("_alias.definition_id", VStr old)]) = Some (VStr old) /\
  def_of d key = Ret (item "cell" [("_alias.definition_id", VStr old)]) /\ get_item old b = Ret v /\ snd (read 30 d true true key b) = Err (XPy KeyErr).
Proof. exists one_alias, (u "_cell.a"), (u "_cell_length_a"), (block_of [("_cell_length_a", t "7")]), (t "7"). vm_compute. auto. Qed.
(** And any part of the text counts as the name: an item nobody defined has a value. *)
Theorem C82_part_of_alias_refuted : exists d key b v, def_of d key = Raise KeyErr /\ has_key key b = false /\ (forall k x, In (k, x) (alias_table d) -> x <> VStr key) /\ read 30 d true true key b = (b, Ok v).
Proof.
  exists one_alias, (u "_cell_length"), cell_block, (t "5"). split; [vm_compute; reflexivity|]. split; [vm_compute; reflexivity|]. split; [|vm_compute; reflexivity].
  intros k x I. vm_compute in I. destruct I as [I|[]]. injection I as <- <-. vm_compute. discriminate.
Qed.
(** Aliases are found under the spelling of the dictionary only. *)
Theorem C82_capitals_refuted : exists d key key2 b v, lower key = lower key2 /\ read 30 d true true key b = (b, Ok v) /\ snd (read 30 d true true key2 b) = Err (XPy KeyErr).
Proof. exists crystal, (u "_cell.a"), (u "_Cell.a"), old_block, (t "6"). vm_compute. auto. Qed.

(** * C83: default values *)
(** Without leave to use defaults a derivation is the same as with a dictionary that has none. *)
Theorem C83_not_used : forall n d cache provide store key b, snd (derive n d cache [] false provide false store key b) <> Err XFuel ->
  derive n (no_defaults d) cache [] false provide false store key b = derive n d cache [] false provide false store key b.
Proof. intros n d cache provide store key b N. destruct (derive_no_defaults n d cache [] false provide false store key b eq_refl) as [E|E]; [exact E|contradiction]. Qed.
(** Reading uses defaults only after a derivation without them has failed. *)
Theorem C83_last_resort : forall n d cache provide key b b1 r, key <> u "saves" -> has_key key b = false ->
  derive n (no_defaults d) cache [] false provide false cache key b = (b1, r) -> r <> Err XFailure -> snd (derive n d cache [] false provide false cache key b) <> Err XFuel -> read n d cache provide key b = (b1, r).
Proof.
  intros n d cache provide key b b1 r S K E N F. rewrite C83_not_used in E by exact F. unfold read, getitem. destruct (str_eqb_spec key (u "saves")); [contradiction|]. rewrite (absent_full _ _ K). unfold attempts. rewrite E.
  destruct r as [v|[]]; try reflexivity. contradiction.
Qed.
(** A default in a looped category is repeated for all rows and put in the loop. *)
Theorem C83_column : forall n d provide key def cat cdef m p col dv w b,
  WF b -> has_key key b = false -> never_alias d key -> def_of d key = Ret def -> is_item_def def = true -> category_of d key = Ret cat -> dd_methods d (lower key) = [] ->
  def_of d cat = Ret cdef -> is_loop cdef = true -> filter (fun a => has_or_alias d a b) (cat_names d cat) = m :: p -> plain d provide m (VList col) b -> find_loop m b <> None ->
  text_default def = Some dv -> change_type d key dv = Ret w -> w <> VNone ->
  check_data_name (b_max b) (b_uni b) key = Ret tt -> acceptable_value (b_uni b) (VList (repeat w (length col))) -> col <> [] ->
  exists b1, read (S n) d true provide key b = (b1, Ok (VList (repeat w (length col)))) /\ get_item key b1 = Ret (VList (repeat w (length col))) /\ find_loop key b1 = find_loop m b.
Proof. intros. eapply default_column; eauto. Qed.
Example C83_meets : WF atoms /\ has_key (u "_atom.charge") atoms = false /\ never_alias crystal (u "_atom.charge") /\ category_of crystal (u "_atom.charge") = Ret (u "atom") /\ dd_methods crystal (lower (u "_atom.charge")) = [] /\
  filter (fun a => has_or_alias crystal a atoms) (cat_names crystal (u "atom")) = [u "_atom.id"] /\ plain crystal false (u "_atom.id") (VList [t "A"; t "B"; t "C"]) atoms /\ find_loop (u "_atom.id") atoms = Some 1%Z /\
  text_default (item "atom" [("_enumeration.default", t "0")]) = Some (t "0") /\ check_data_name (b_max atoms) (b_uni atoms) (u "_atom.charge") = Ret tt /\
  acceptable_value (b_uni atoms) (VList (repeat (t "0") 3)) /\ snd (read 30 crystal true false (u "_atom.charge") atoms) = Ok (VList [t "0"; t "0"; t "0"]).
Proof.
  split; [exact atoms_wf|]. split; [reflexivity|]. split. { split; [vm_compute; reflexivity|]. intros k v I. vm_compute in I. destruct I as [I|[]]. injection I as <- <-. vm_compute. reflexivity. }
  split; [vm_compute; reflexivity|]. split; [vm_compute; reflexivity|]. split; [vm_compute; reflexivity|]. split; [split; [vm_compute; reflexivity|left; reflexivity]|]. split; [vm_compute; reflexivity|]. split; [vm_compute; reflexivity|]. split; [vm_compute; reflexivity|].
  split; [split; [eexists; vm_compute; reflexivity|vm_compute; reflexivity]|vm_compute; reflexivity].
Qed.
(** A default that is chosen by a code: the entry with that code, whatever its capitals. *)
Theorem C83_index_value : forall n d provide key cat idx def ct ti b index vals k code x w,
  key <> u "saves" -> has_key key b = false -> never_alias d key -> category_of d key = Ret cat -> def_of d cat = Ret ct -> is_loop ct = false -> settled d cat b -> def_of d key = Ret def -> (forall q, In q (dd_methods d (lower key)) -> gives d b q VNone) ->
  tget (u "_enumeration.default") def = None -> tget (u "_enumeration.def_index_id") def = Some (VStr idx) -> idx <> u "saves" -> idx <> [] ->
  tget (u "_enumeration_default.index") def = Some (VList (map VStr index)) -> tget (u "_enumeration_default.value") def = Some (VList vals) ->
  def_of d idx = Ret ti -> tget (u "_type.contents") ti = Some (VStr (u k)) -> In k ["Code"; "Name"; "Tag"] ->
  shown d provide b idx (VStr code) -> entry index vals code x -> change_type d key x = Ret w -> w <> VNone -> read (S n) d false provide key b = (b, Ok w).
Proof.
  intros n d provide key cat idx def ct ti b index vals k code x w S K NA EC DC NL ST D M ND DI SI NE IX VX DX TC KC SH E C N.
  eapply (index_read d provide key cat def ct b S K NA EC DC ST D M n w true); [|exact N|congruence]. intros D0.
  eapply (index_default d provide key idx def ti b index vals k ND DI SI IX VX DX TC KC); [exact NE|exact SH|]. exists code, x. auto.
Qed.
(** And a column of them for a column of codes. *)
Theorem C83_index_column : forall n d provide key cat idx def ct ti b index vals k codes xs w,
  key <> u "saves" -> has_key key b = false -> never_alias d key -> category_of d key = Ret cat -> def_of d cat = Ret ct -> (exists m, In m (cat_names d cat) /\ has_or_alias d m b = true) -> def_of d key = Ret def -> (forall q, In q (dd_methods d (lower key)) -> gives d b q VNone) ->
  tget (u "_enumeration.default") def = None -> tget (u "_enumeration.def_index_id") def = Some (VStr idx) -> idx <> u "saves" -> idx <> [] ->
  tget (u "_enumeration_default.index") def = Some (VList (map VStr index)) -> tget (u "_enumeration_default.value") def = Some (VList vals) ->
  def_of d idx = Ret ti -> tget (u "_type.contents") ti = Some (VStr (u k)) -> In k ["Code"; "Name"; "Tag"] ->
  shown d provide b idx (VList (map VStr codes)) -> Forall2 (entry index vals) codes xs -> change_type d key (VList xs) = Ret w -> w <> VNone -> read (S n) d false provide key b = (b, Ok w).
Proof.
  intros n d provide key cat idx def ct ti b index vals k codes xs w S K NA EC DC P D M ND DI SI NE IX VX DX TC KC SH E C N.
  eapply (index_read d provide key cat def ct b S K NA EC DC (or_introl P) D M n w false); [|exact N|auto]. intros D0.
  eapply (index_default d provide key idx def ti b index vals k ND DI SI IX VX DX TC KC); [exact NE|exact SH|]. exists codes, xs. auto.
Qed.
Definition by_code : ddict := plain_dd
  [(u "atom", category "Loop"); (u "_atom.type", item "atom" [("_type.contents", t "Code")]);
   (u "_atom.mass", item "atom" [("_enumeration.def_index_id", t "_atom.type"); ("_enumeration_default.index", VList (map VStr [u "H"; u "He"; u "Li"])); ("_enumeration_default.value", VList [t "1.008"; t "4.003"; t "6.94"])])] (fun _ => []) same_value.
Definition typed : block := run_ops [OAdd (u "_atom.type") (VList [t "HE"; t "h"]); OCreate [u "_atom.type"] (-1)] (empty_block true 0 false).
Example C83_index_meets : shown by_code true typed (u "_atom.type") (VList (map VStr [u "HE"; u "h"])) /\ Forall2 (entry [u "H"; u "He"; u "Li"] [t "1.008"; t "4.003"; t "6.94"]) [u "HE"; u "h"] [t "4.003"; t "1.008"] /\
  read 30 by_code false true (u "_atom.mass") typed = (typed, Ok (VList [t "4.003"; t "1.008"])).
Proof.
  split; [|split; [|vm_compute; reflexivity]].
  - apply (shown_converted _ _ _ _ (VList [t "HE"; t "h"])); [vm_compute; reflexivity|reflexivity| |vm_compute; reflexivity]. split; intros I; vm_compute in I; intuition discriminate.
  - constructor; [|constructor; [|constructor]].
    + exists [u "H"], (u "He"), [u "Li"]. split; [reflexivity|]. split; [vm_compute; reflexivity|]. split; [intros x [<-|[]]; vm_compute; discriminate|reflexivity].
    + exists [], (u "H"), [u "He"; u "Li"]. split; [reflexivity|]. split; [vm_compute; reflexivity|]. split; [intros x []|reflexivity].
Qed.
Definition by_count : ddict := plain_dd
  [(u "c", category "Set"); (u "_c.n", item "c" [("_type.contents", t "Count")]);
   (u "_c.x", item "c" [("_enumeration.def_index_id", t "_c.n"); ("_enumeration_default.index", VList [t "1"; t "2"]); ("_enumeration_default.value", VList [t "one"; t "two"])])] (fun _ => []) same_value.
(** A default that is chosen by the value of an item of type other than Code, Name or
    Tag cannot be used: lcase_comp was never set. *)
Theorem C83_index_refuted : exists d b key, get_item (u "_c.n") b = Ret (t "2") /\ snd (read 30 d true true key b) = Err XUnbound.
Proof. exists by_count, (block_of [("_c.n", t "2")]), (u "_c.x"). vm_compute. auto. Qed.
Definition failing_category : ddict := plain_dd
  [(u "c", category "Set"); (u "top", category "Set"); (u "_c.x", item "c" [("_enumeration.default", t "1")])] (method_table [("c", [Ask (u "_none") Done])]) same_value.
(** A method of the category that cannot be carried out keeps an item from its own
    default value. *)
Theorem C83_category_method_refuted : exists d d' key b v, dd_defs d' = dd_defs d /\ (forall k, str_eqb k (u "c") = false -> dd_methods d' k = dd_methods d k) /\
  snd (read 30 d' true true key b) = Ok v /\ snd (read 30 d true true key b) = Err (XPy KeyErr).
Proof.
  exists failing_category, (plain_dd (dd_defs failing_category) (fun _ => []) same_value), (u "_c.x"), (block_of []), (t "1"). split; [reflexivity|]. split.
  - intros k N. cbn [dd_methods plain_dd failing_category]. unfold method_table. cbn [find fst]. destruct (str_eqb_spec (u "c") k) as [<-|]; [|reflexivity]. vm_compute in N. discriminate N.
  - vm_compute. auto.
Qed.
(** Rows cannot be added to a category that is there: in every dictionary the stored
    category is asked for with a list of names. *)
Theorem C83_extend_fails : forall d cols cat b keys ns, key_names d (map fst cols) = Ret keys -> names_in_cat (dd_defs d) cat = Ret ns -> existsb (fun n => has_key n b) (map fst cols) = true ->
  same_set (filter (fun a => has_key a b) ns) (map fst cols) = true -> store_cat d (VDict cols) cat b = (b, Err (XPy AttributeErr)).
Proof. intros d cols cat b keys ns K N D S. unfold store_cat, bind, lift, look. rewrite K, D, N. cbn [fst]. now rewrite S. Qed.
Definition rows : ddict := plain_dd [(u "atom", category "Loop"); (u "_atom.id", (u "_definition.scope", t "Item") :: (u "_name.object_id", t "id") :: item "atom" [("_type.purpose", t "Key")])] (fun _ => []) same_value.
(** So a calculated row is never added to a category. *)
Theorem C83_extend_refuted : exists d b cols cat, WF b /\ has_key (u "_atom.id") b = true /\ (forall v, In v [t "A"; t "B"; t "C"] -> ~ In (u "_atom.id", VList [v]) cols) /\ store_cat d (VDict cols) cat b = (b, Err (XPy AttributeErr)).
Proof.
  exists rows, atoms, [(u "_atom.id", VList [t "D"])], (u "atom"). split; [exact atoms_wf|]. split; [vm_compute; reflexivity|]. split; [|vm_compute; reflexivity].
  intros v I [E|[]]. injection E as <-. destruct I as [I|[I|[I|[]]]]; vm_compute in I; discriminate I.
Qed.

Definition derive_theorems := (C80_present, C81_method, C83_index_value, C83_index_column, C79_ends, C79_bound_free, C80_well_formed, C80_adds_defined, C80_kept_partial, C80_kept_refuted, C80_default_returned_refuted, C80_all_or_nothing_refuted, C81_stored_partial, C81_calculated_refuted,
  C82_old_name, C82_new_name, C82_other_old_name, C82_two_definitions, C82_single_alias_refuted, C82_part_of_alias_refuted, C82_capitals_refuted, C83_not_used, C83_last_resort, C83_column, C83_index_refuted, C83_category_method_refuted, C83_extend_fails, C83_extend_refuted).
Print Assumptions derive_theorems.
