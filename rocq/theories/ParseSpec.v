(** Specification vocabulary for reading printed values and blocks back. *)
From Coq Require Import String Ascii List NArith ZArith Bool.
From Verif Require Import PyBase RegexModel StarBlockModel ScanModel FormatModel ReadModel WriteModel ParseModel FoldSpec ReadSpec ScanSpec FormatSpec WriteSpec.
Import ListNotations.

(** A printed list is read back as a STAR list; python's list is only how it is
    stored before. *)
Fixpoint canon (v : value) : value :=
  match v with
  | VList l | VSL l => VSL (map canon l)
  | VDict d => VDict (map (fun kv => (fst kv, canon (snd kv))) d)
  | _ => v
  end.

(** The values that are read back.  Texts: as in [readable], for the delimiter
    asked for; inside lists and tables no delimiter is asked for, and a loop_
    keyword is not recognised.  Tables: keys are quoted as they are, and are
    different. *)
Definition key_ok (k : str) : Prop := ~ In NL k /\ ~ In CR k /\ ~ In FF k /\ ~ In QS k.
Inductive legible (g : grammar) (maxout : Z) : bool -> option str -> value -> Prop :=
| l_str b req s : (forall f, format_string g maxout req s = Ret f -> readable b s f) -> legible g maxout b req (VStr s)
| l_list b req l : has_triples g -> Forall (legible g maxout false None) l -> legible g maxout b req (VList l)
| l_slist b req l : has_triples g -> Forall (legible g maxout false None) l -> legible g maxout b req (VSL l)
| l_dict b req d : has_triples g -> NoDup (map fst d) -> Forall (fun kv => key_ok (fst kv) /\ legible g maxout false None (snd kv)) d ->
    legible g maxout b req (VDict d).

(** The entries read for a data block without save frames. *)
Definition plain_items (cs : list content) : list item :=
  flat_map (fun c => match c with CItems l => l | CFrame _ _ => [] end) cs.

(** Datanames that the grammar recognises; block names likewise. *)
Definition readable_name (g : grammar) (t : str) : Prop :=
  exists r, t = u "_" ++ r /\ r <> [] /\ Forall (fun c => name_char g c = true) r.
Definition readable_heading (g : grammar) (nm : str) : Prop := nm <> [] /\ Forall (fun c => name_char g c = true) nm.

(** Entries as they are read back: lists become STAR lists. *)
Definition canon_item (e : item) : item :=
  match e with Kv t v => Kv t (canon v) | Lp ts vs => Lp ts (map canon vs) end.

(** Entries that are read back, for the delimiters [reqs] that may be asked for. *)
Definition legible_entry (g : grammar) (maxout : Z) (reqs : list (option str)) (e : item) : Prop :=
  match e with
  | Kv t v => readable_name g t /\ forall req, In req reqs -> legible g maxout false req v
  | Lp ts vs => ts <> [] /\ vs <> [] /\ Forall (readable_name g) ts
      /\ Forall (fun v => forall req, In req reqs -> legible g maxout true req v) vs
      /\ ends_full (map canon vs)
  end.

(** Blocks with the same contents: values, loops, spelling. *)
Definition same_contents (a b : block) : Prop :=
  forall n, get_item n a = get_item n b /\ get_loop_names n a = get_loop_names n b
            /\ dget str_eqb n (b_true a) = dget str_eqb n (b_true b).

(** Delimiters that the output hints [hs] may ask for. *)
Definition asked (hs : list hint) : list (option str) := None :: map h_delim hs.
(** Entries that the printer separates: a table comes after a name that leaves
    room on the line; in a loop with lists or tables no two texts are neighbours
    in a row; no column hint of a loop column is 0. *)
Definition separated (hs : list hint) (e : item) : Prop :=
  match e with
  | Kv t v => match v with
              | VDict _ => (length t < 80)%nat /\ match h_pos (item_hint hs (lower t)) with Some p => (p <= 0)%Z | None => True end
              | _ => True
              end
  | Lp ts vs =>
      (Forall (fun v => compound v = false) vs /\ forall t, In t ts -> hint_col (loop_hint hs (lower t)) <> 0%Z)
      \/ forall i j v w, (Datatypes.S j < length ts)%nat -> nth_error vs (j + i * length ts) = Some v -> nth_error vs (Datatypes.S j + i * length ts) = Some w ->
           compound v = true \/ compound w = true
  end.
(** Entries that can be printed and read back. *)
Definition round_trips (g : grammar) (maxout : Z) (hs : list hint) (e : item) : Prop :=
  separated hs e /\ legible_entry g maxout (asked hs) e.

(** A file of blocks: headings and printed contents. *)
Definition file_text (bs : list (str * str)) : str :=
  concat (map (fun b => [10%N] ++ u "data_" ++ fst b ++ [10%N] ++ snd b) bs).
(** What is read for a block that shows [es]. *)
Definition read_of (es : list item) : list content := match es with [] => [] | _ => [CItems (map canon_item es)] end.

(** What is read for the value of a dataname: the columns of a loop keep their
    form, their values and single values are read as in [canon]. *)
Definition read_back (looped : bool) (v : value) : value :=
  if looped then match v with VList l => VList (map canon l) | _ => v end else canon v.
Definition is_ret {A} (x : outcome A) : bool := match x with Ret _ => true | Raise _ => false end.
(** [b'] is [b] after writing and reading. *)
Definition same_read (b b' : block) : Prop :=
  forall n, get_loop_names n b' = get_loop_names n b /\ dget str_eqb n (b_true b') = dget str_eqb n (b_true b)
    /\ get_item n b' = match get_item n b with Ret v => Ret (read_back (is_ret (get_loop_names n b)) v) | Raise e => Raise e end.

(** Length limit on datanames, if there is one. *)
Definition names_fit (mx : Z) (es : list item) : Prop :=
  (0 < mx)%Z -> forall n, In n (all_names es) -> (Z.of_nat (length n) <= mx)%Z.
(** The same place of the output order: the same single dataname, or a loop with
    the same columns in the same order. *)
Definition same_place (b b' : block) (x y : oitem) : Prop :=
  match x, y with
  | ON n, ON m => n = m
  | OL k, OL l => exists cols, dget Z.eqb k (b_loops b) = Some cols /\ dget Z.eqb l (b_loops b') = Some cols
  | _, _ => False
  end.
(** Blocks that can be printed with the hints [hs] and read back. *)
Definition writable (g : grammar) (maxout mx : Z) (b : block) (es : list item) : Prop :=
  StarBlockSpec.WF b /\ Forall2 (shows b) (b_order b) es /\ Forall (round_trips g maxout []) es /\ names_fit mx es.

(** Texts that are read back when printed without hints. *)
Definition clear_text (g : grammar) (maxout : Z) (in_loop : bool) (s : str) : Prop :=
  forall f, format_string g maxout None s = Ret f -> readable in_loop s f.
(** Names that are recognised and not too long. *)
Definition good_names (g : grammar) (mx : Z) (b : block) : Prop :=
  forall n t, dget str_eqb n (b_true b) = Some t -> readable_name g t /\ ((0 < mx)%Z -> (Z.of_nat (length t) <= mx)%Z).
(** Blocks of text items and loops of texts with rows of equal length. *)
Definition text_block (g : grammar) (maxout mx : Z) (b : block) : Prop :=
  StarBlockSpec.WF b /\ good_names g mx b
  /\ (forall n, In n (b_keys b) -> get_loop_names n b = Raise KeyErr ->
        exists s, get_item n b = Ret (VStr s) /\ clear_text g maxout false s)
  /\ (forall k cols, In (k, cols) (b_loops b) -> exists rows, (0 < rows)%nat /\ LoopSpec.is_table b cols rows
        /\ forall n i v, In n cols -> LoopSpec.cell b n i v -> exists s, v = VStr s /\ clear_text g maxout true s).
(** The same with lists and tables.  A table has a name of less than 80 characters;
    in a loop that has lists or tables no two texts are neighbours in a row; the
    last value of a loop is not an empty list. *)
Definition good_block (g : grammar) (maxout mx : Z) (b : block) : Prop :=
  StarBlockSpec.WF b /\ good_names g mx b
  /\ (forall n, In n (b_keys b) -> get_loop_names n b = Raise KeyErr ->
        exists v, get_item n b = Ret v /\ legible g maxout false None v
                  /\ match v with VDict _ => (length n < 80)%nat | _ => True end)
  /\ (forall k cols, In (k, cols) (b_loops b) -> exists rows, (0 < rows)%nat /\ LoopSpec.is_table b cols rows
        /\ (forall n i v, In n cols -> LoopSpec.cell b n i v -> legible g maxout true None v)
        /\ ((forall n i v, In n cols -> LoopSpec.cell b n i v -> compound v = false)
            \/ forall j n m i v w, nth_error cols j = Some n -> nth_error cols (Datatypes.S j) = Some m ->
                 LoopSpec.cell b n i v -> LoopSpec.cell b m i w -> compound v = true \/ compound w = true)
        /\ (forall n v, nth_error cols (length cols - 1) = Some n -> LoopSpec.cell b n (rows - 1) v -> v <> VList [] /\ v <> VSL [])).

(** The same for output with the hints [hs]: values have to be read back with every
    delimiter that is asked for, a column hint for a loop column is not 0, and a
    table is not moved to the right. *)
Definition hinted_block (g : grammar) (maxout mx : Z) (hs : list hint) (b : block) : Prop :=
  StarBlockSpec.WF b /\ good_names g mx b
  /\ (forall n, In n (b_keys b) -> get_loop_names n b = Raise KeyErr ->
        exists v, get_item n b = Ret v /\ (forall req, In req (asked hs) -> legible g maxout false req v)
                  /\ match v with VDict _ => (length n < 80)%nat /\ match h_pos (item_hint hs n) with Some p => (p <= 0)%Z | None => True end | _ => True end)
  /\ (forall k cols, In (k, cols) (b_loops b) -> exists rows, (0 < rows)%nat /\ LoopSpec.is_table b cols rows
        /\ (forall n i v, In n cols -> LoopSpec.cell b n i v -> forall req, In req (asked hs) -> legible g maxout true req v)
        /\ ((forall n, In n cols -> hint_col (loop_hint hs n) <> 0%Z) /\ (forall n i v, In n cols -> LoopSpec.cell b n i v -> compound v = false)
            \/ forall j n m i v w, nth_error cols j = Some n -> nth_error cols (Datatypes.S j) = Some m ->
                 LoopSpec.cell b n i v -> LoopSpec.cell b m i w -> compound v = true \/ compound w = true)
        /\ (forall n v, nth_error cols (length cols - 1) = Some n -> LoopSpec.cell b n (rows - 1) v -> v <> VList [] /\ v <> VSL [])).
(** Text blocks for output with the hints [hs]. *)
Definition clear_hinted (g : grammar) (maxout : Z) (hs : list hint) (in_loop : bool) (s : str) : Prop :=
  forall req f, In req (asked hs) -> format_string g maxout req s = Ret f -> readable in_loop s f.
Definition hinted_text_block (g : grammar) (maxout mx : Z) (hs : list hint) (b : block) : Prop :=
  StarBlockSpec.WF b /\ good_names g mx b
  /\ (forall n, In n (b_keys b) -> get_loop_names n b = Raise KeyErr ->
        exists s, get_item n b = Ret (VStr s) /\ clear_hinted g maxout hs false s)
  /\ (forall k cols, In (k, cols) (b_loops b) -> exists rows, (0 < rows)%nat /\ LoopSpec.is_table b cols rows
        /\ (forall n, In n cols -> hint_col (loop_hint hs n) <> 0%Z)
        /\ forall n i v, In n cols -> LoopSpec.cell b n i v -> exists s, v = VStr s /\ clear_hinted g maxout hs true s).

(** Texts without backslash, hash sign and control characters other than tab and
    newline, and values made of them. *)
Definition ordinary (s : str) : Prop :=
  (forall c, In c s -> is_space c = false \/ In c [32; 9; 10]%N) /\ ~ In 92%N s /\ ~ In 35%N s
  /\ ~ starts_ci (u "stop_") s /\ lower s <> u "loop_".
Inductive ordinary_value : value -> Prop :=
| o_str s : ordinary s -> ordinary_value (VStr s)
| o_list l : Forall ordinary_value l -> ordinary_value (VList l)
| o_slist l : Forall ordinary_value l -> ordinary_value (VSL l)
| o_dict d : NoDup (map fst d) -> Forall (fun kv => key_ok (fst kv) /\ ordinary_value (snd kv)) d -> ordinary_value (VDict d).
