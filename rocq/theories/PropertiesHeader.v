(** C109, C110: the function that is put around a translated dREL method. *)
From Coq Require Import String Ascii List NArith PeanoNat Bool Lia.
From Verif Require Import PyBase PyFacts StarBlockModel TypeInfoModel HeaderModel HeaderSpec HeaderProofs.
Import ListNotations.
Open Scope nat_scope.

(** ** C109: all rows and one row *)
(** For a whole column the body is run on the rows, in order, as many as the shortest
    column has; the result is the list of its results or its first failure. *)
Theorem C109_all : forall f t cat h body n fuel, make_header t false cat = Some h -> readable f t n -> n < fuel ->
  exists rows, length rows = n /\ (forall i r, nth_error rows i = Some r -> row_of f t i r) /\ results (map body rows) (call_all fuel h body f).
Proof. exact all_rows. Qed.
(** For one packet it is run on that row, if nothing optional is there. *)
Theorem C109_one : forall f t cat h body n i r, make_header t false cat = Some h -> readable f t n -> (forall k e, In (k, e) t -> snd e = true -> missing f k) -> row_of f t i r ->
  call_one h body f i = body r.
Proof. exact one_row. Qed.
(** Then the column and the packets are the same. *)
Theorem C109_same : forall f t cat h body n fuel, make_header t false cat = Some h -> readable f t n -> (forall k e, In (k, e) t -> snd e = true -> missing f k) -> n < fuel ->
  results (map (call_one h body f) (seq 0 n)) (call_all fuel h body f).
Proof.
  intros f t cat h body n fuel H R M L. destruct (all_rows f t cat h body n fuel H R L) as (rows & Lr & W & Rs).
  assert (map (call_one h body f) (seq 0 n) = map body rows) as ->; [|exact Rs].
  apply nth_error_same. intros i. rewrite !nth_error_map. destruct (nth_error rows i) as [r|] eqn:E.
  - assert (i < n) as Hi by (rewrite <- Lr; apply nth_error_Some; congruence). rewrite (nth_error_nth' _ 0) by (now rewrite seq_length). rewrite seq_nth by exact Hi. cbn. f_equal. exact (one_row f t cat h body n i r H R M (W i r E)).
  - apply nth_error_None in E. assert (nth_error (seq 0 n) i = None) as -> by (apply nth_error_None; rewrite seq_length; lia). reflexivity.
Qed.
Theorem C109_row_exists : forall f t n i, readable f t n -> i < n -> exists r, row_of f t i r.
Proof. exact row_exists. Qed.
(** A method that uses nothing but the number of its row: as many rows as the first
    column of the category that is there, none if there is none. *)
Theorem C109_rows : forall f cat h body, make_header [] true cat = Some h ->
  match filter (f_has f) (f_cat f cat) with
  | [] => forall fuel, call_all fuel h body f = Ret []
  | k :: _ => forall l fuel, column f k false l -> length l < fuel -> results (map (fun i => body [ARow i]) (seq 0 (length l))) (call_all fuel h body f)
  end.
Proof. exact row_numbers. Qed.
Theorem C109_row_syntax : forall kv t cat h body f, make_header (kv :: t) true cat = Some h -> (forall fuel, call_all fuel h body f = Raise SyntaxErr) /\ forall i, call_one h body f i = Raise SyntaxErr.
Proof. exact row_syntax. Qed.
Theorem C109_row_one : forall cat h body f i, make_header [] true cat = Some h -> call_one h body f i = Raise NameErr.
Proof. exact row_one. Qed.
Theorem C109_endless : forall f t cat h body fuel, make_header t false cat = Some h -> (forall k e, In (k, e) t -> snd e = true /\ missing f k) -> (forall r, exists v, body r = Ret v) ->
  call_all fuel h body f = Raise OutOfFuel.
Proof. exact endless. Qed.

Definition n_ (s : string) : value := VStr (u s).
Definition entry (v : string) (o : bool) : str * nat * bool := (u v, 0, o).
Definition atoms : data := mkData
  (fun k => if str_eqb k (u "_atom.x") then Ret (VList [n_ "1"; n_ "2"; n_ "3"]) else if str_eqb k (u "_atom.y") then Ret (VSL [n_ "4"; n_ "5"]) else if str_eqb k (u "_atom.title") then Ret (n_ "ab") else Raise KeyErr)
  (fun k => str_eqb k (u "_atom.x") || str_eqb k (u "_atom.y") || str_eqb k (u "_atom.title"))
  (fun c => if str_eqb c (u "atom") then [u "_atom.z"; u "_atom.x"; u "_atom.y"] else [])
  (fun k => str_eqb k (u "_atom.x") || str_eqb k (u "_atom.y")).
(** The values of the row, as they are. *)
Definition show (r : list arg) : outcome value := Ret (VList (map (fun a => match a with AVal v => v | ARow n => VStr (repeat 49%N n) end) r)).
Definition xyz : with_table := [(u "_atom.x", entry "a" false); (u "_atom.y", entry "b" false); (u "_atom.z", entry "c" true)].
Lemma xyz_readable : readable atoms xyz 2.
Proof.
  split.
  - intros k e [[= <- <-]|[[= <- <-]|[[= <- <-]|[]]]].
    + left. eexists. split; [split; [left; vm_compute; reflexivity|discriminate]|cbn; lia].
    + left. eexists. split; [split; [right; vm_compute; reflexivity|discriminate]|cbn; lia].
    + right. split; [reflexivity|]. left. vm_compute. reflexivity.
  - exists (u "_atom.y"), (entry "b" false). eexists. split; [right; left; reflexivity|]. split; [split; [right; vm_compute; reflexivity|discriminate]|reflexivity].
Qed.
Example C109_meets : exists h, make_header xyz false (u "atom") = Some h /\ readable atoms xyz 2 /\ (forall k e, In (k, e) xyz -> snd e = true -> missing atoms k) /\
  call_all 3 h show atoms = Ret [VList [n_ "1"; n_ "4"; VNone]; VList [n_ "2"; n_ "5"; VNone]] /\ call_one h show atoms 1 = Ret (VList [n_ "2"; n_ "5"; VNone]).
Proof.
  eexists. split; [reflexivity|]. split; [exact xyz_readable|]. split; [|split; vm_compute; reflexivity].
  intros k e [[= <- <-]|[[= <- <-]|[[= <- <-]|[]]]]; try discriminate. intros _. left. vm_compute. reflexivity.
Qed.
Example C109_meets_rows : exists h, make_header [] true (u "atom") = Some h /\ call_all 4 h show atoms = Ret [VList [VStr []]; VList [n_ "1"]; VList [n_ "11"]].
Proof. eexists. split; [reflexivity|]. vm_compute. reflexivity. Qed.
(** An optional item that is there: a packet of the whole column gets the value of its
    row, a single packet gets all values of the item. *)
Theorem C109_optional_refuted : exists f t cat h body n i vs v w, make_header t false cat = Some h /\ readable f t n /\ i < n /\ call_all (S n) h body f = Ret vs /\ nth_error vs i = Some v /\ call_one h body f i = Ret w /\ w <> v.
Proof.
  exists atoms, [(u "_atom.x", entry "a" false); (u "_atom.y", entry "b" true)], (u "atom"). eexists. exists show, 2, 0. do 3 eexists. split; [reflexivity|]. split.
  - split.
    + intros k e [[= <- <-]|[[= <- <-]|[]]]; left; eexists; (split; [split; [|intros _; vm_compute; reflexivity]|]); [left; vm_compute; reflexivity|cbn; lia|right; vm_compute; reflexivity|cbn; lia].
    + exists (u "_atom.y"), (entry "b" true). eexists. split; [right; left; reflexivity|]. split; [split; [right; vm_compute; reflexivity|intros _; vm_compute; reflexivity]|reflexivity].
  - split; [lia|]. split; [vm_compute; reflexivity|]. split; [vm_compute; reflexivity|]. split; [vm_compute; reflexivity|]. discriminate.
Qed.
(** If all that a method names is optional and missing, the column has no end. *)
Theorem C109_endless_refuted : exists f t cat h body, make_header t false cat = Some h /\ (forall r, exists v, body r = Ret v) /\ (forall fuel, call_all fuel h body f = Raise OutOfFuel) /\ forall i, call_one h body f i = Ret (VList [VNone]).
Proof.
  exists atoms, [(u "_atom.z", entry "c" true)], (u "atom"). eexists. exists show. split; [reflexivity|]. assert (forall r, exists v, show r = Ret v) as B by (intros r; eexists; reflexivity). split; [exact B|]. split; [|intros i; vm_compute; reflexivity].
  intros fuel. apply (C109_endless atoms [(u "_atom.z", entry "c" true)] (u "atom")); [reflexivity| |exact B]. intros k e [[= <- <-]|[]]. split; [reflexivity|]. left. vm_compute. reflexivity.
Qed.
(** A method that uses the number of its row and another item can not be compiled. *)
Theorem C109_row_refuted : exists f t n cat h, make_header t true cat = Some h /\ readable f t n /\ forall body, (forall fuel, call_all fuel h body f = Raise SyntaxErr) /\ forall i, call_one h body f i = Raise SyntaxErr.
Proof. exists atoms, xyz, 2, (u "atom"). eexists. split; [reflexivity|]. split; [exact xyz_readable|]. intros body. now apply (C109_row_syntax (u "_atom.x", entry "a" false) (tl xyz) (u "atom")). Qed.
(** One that uses its number only works for the column and fails for every packet. *)
Theorem C109_number_refuted : exists f cat h body vs, make_header [] true cat = Some h /\ call_all 4 h body f = Ret vs /\ length vs = 3 /\ forall i, call_one h body f i = Raise NameErr.
Proof. exists atoms, (u "atom"). eexists. exists show. eexists. split; [reflexivity|]. split; [vm_compute; reflexivity|]. split; [reflexivity|]. intros i. now apply (C109_row_one (u "atom")). Qed.
(** An item of the category that is not looped is taken letter by letter. *)
Theorem C109_scalar_refuted : exists f t cat h k s, make_header t false cat = Some h /\ map fst t = [k] /\ f_get f k = Ret (VStr s) /\ length s = 2 /\ call_all 3 h show f = Ret [VList [n_ "a"]; VList [n_ "b"]] /\ s = u "ab".
Proof. exists atoms, [(u "_atom.title", entry "a" false)], (u "atom"). do 3 eexists. split; [reflexivity|]. split; [reflexivity|]. split; [vm_compute; reflexivity|]. split; [reflexivity|]. split; [vm_compute; reflexivity|reflexivity]. Qed.

(** ** C110: the text of the body *)
(** Every line of the body is moved by eight spaces, and nothing else happens. *)
Theorem C110_body : forall s, s <> [] -> last s 0%N <> 10%N -> exists t, spaced 8 s t /\ body_text s = Ret (indent ++ t ++ [10%N]).
Proof. exact body_kept. Qed.
Theorem C110_add_indent : forall s t, spaced 4 s t <-> add_indent s = t.
Proof. intros s t. split; [intros S; exact (spaced_fun 4 s _ _ (add_indent_spaced s) S)|intros <-; apply add_indent_spaced]. Qed.
(** A piece of the text, such as a text constant, is what it was exactly if it has no
    newline. *)
Theorem C110_pieces : forall a c b, b <> [] -> last b 0%N <> 10%N -> exists a' c' b', body_text (a ++ c ++ b) = Ret (indent ++ a' ++ c' ++ b' ++ [10%N]) /\
  spaced 8 a a' /\ spaced 8 c c' /\ spaced 8 b b' /\ (c' = c <-> ~ In 10%N c).
Proof.
  intros a c b NE NL. destruct (spaced_total 8 a) as (a' & Sa), (spaced_total 8 c) as (c' & Sc), (spaced_total 8 b) as (b' & Sb). exists a', c', b'.
  assert (a ++ c ++ b <> []) as NE' by (destruct a, c, b; try discriminate; now elim NE).
  assert (last (a ++ c ++ b) 0%N <> 10%N) as NL'. { destruct (exists_last NE) as (b0 & x & ->). rewrite last_last in NL. now rewrite !app_assoc, last_last. }
  destruct (body_kept _ NE' NL') as (t & St & Et). assert (t = a' ++ c' ++ b') as -> by (eapply spaced_fun; [exact St|]; apply spaced_app; [exact Sa|]; now apply spaced_app).
  split; [rewrite Et; f_equal; now rewrite <- !app_assoc|]. split; [exact Sa|]. split; [exact Sc|]. split; [exact Sb|]. split.
  - intros -> I. apply spaced_length in Sc. apply (count_occ_In N.eq_dec) in I. lia.
  - intros N. exact (spaced_fun 8 c _ _ Sc (spaced_same 8 c N)).
Qed.
Example C110_meets : body_text (u "a = 1" ++ [10%N] ++ u "__dreltarget = 'b'") = Ret (u "        a = 1" ++ [10%N] ++ u "        __dreltarget = 'b'" ++ [10%N]).
Proof. vm_compute. reflexivity. Qed.
(** A text constant in two lines has eight spaces more than was written, and four more
    for every block it is in. *)
Theorem C110_constant_refuted : exists a c b c', In 10%N c /\ c' <> c /\ body_text (a ++ c ++ b) = Ret (indent ++ a ++ c' ++ b ++ [10%N]) /\ a = u "__dreltarget = """"""" /\ b = u """""""".
Proof.
  exists (u "__dreltarget = """""""), (u "one" ++ [10%N] ++ u "two"), (u """"""""), (u "one" ++ [10%N] ++ u "        two"). split; [vm_compute; tauto|]. split; [vm_compute; discriminate|]. split; [vm_compute; reflexivity|]. split; reflexivity.
Qed.

Definition header_theorems := (C109_all, C109_one, C109_same, C109_row_exists, C109_rows, C109_row_syntax, C109_row_one, C109_endless, C109_optional_refuted, C109_endless_refuted, C109_row_refuted, C109_number_refuted, C109_scalar_refuted,
  C110_body, C110_add_indent, C110_pieces, C110_constant_refuted).
Print Assumptions header_theorems.
