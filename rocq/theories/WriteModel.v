(** The output sink CIFStringIO and block printing (src/StarFile.nw 2430-2700).
    No proofs here. *)
From Coq Require Import String Ascii List NArith ZArith Bool.
From Verif Require Import PyBase RegexModel FoldModel StarBlockModel LoopModel ScanModel FormatModel.
Import ListNotations.

(** CIFStringIO (2430-2437): text written so far, current position, target width,
    tab width, indents (last first) and last character. *)
Record sink := Sink { k_out : str; k_pos : Z; k_width : Z; k_tab : Z; k_indent : list Z; k_last : option N }.
Definition new_sink : sink := Sink [] 0 80 (-1) [0%Z] None.

(** Keyword arguments of write (2439-2440) with their defaults. *)
Record wargs := WArgs { a_canbreak : bool; a_mustbreak : bool; a_tab : bool; a_newindent : bool;
                        a_unindent : bool; a_delim : bool; a_startcol : Z }.
Definition plain_args : wargs := WArgs false false true false false false (-1).

Definition spaces (n : Z) : str := repeat 32%N (Z.to_nat n).
Definition top_indent (k : sink) : Z := hd 0%Z (k_indent k).
Definition put (t : str) (k : sink) : sink :=
  Sink (k_out k ++ t) (k_pos k) (k_width k) (k_tab k) (k_indent k) (k_last k).
Definition set_pos (p : Z) (k : sink) : sink := Sink (k_out k) p (k_width k) (k_tab k) (k_indent k) (k_last k).
Definition set_last (c : option N) (k : sink) : sink := Sink (k_out k) (k_pos k) (k_width k) (k_tab k) (k_indent k) c.
Definition set_indent (i : list Z) (k : sink) : sink := Sink (k_out k) (k_pos k) (k_width k) (k_tab k) i (k_last k).
(** set_tab (2505-2507) *)
Definition set_tab (t : Z) (k : sink) : sink := Sink (k_out k) (k_pos k) (k_width k) t (k_indent k) (k_last k).
Definition last_char (s : str) : option N := match rev s with c :: _ => Some c | [] => None end.

(** A line break and the current indent (2449-2452). *)
Definition break_line (k : sink) : sink :=
  let t := nl :: spaces (top_indent k) in
  set_last (last_char t) (set_pos (top_indent k) (put t k)).

(** Position after the last line break: [len(s)-s.rfind('\n')] (2495-2497). *)
Fixpoint after_break (s : str) : option nat :=
  match s with
  | [] => None
  | c :: s' => match after_break s' with
               | Some n => Some n
               | None => if (c =? nl)%N then Some (Datatypes.S (length s')) else None
               end
  end.

(** write (2439-2503).  The text of a delimiter may not be longer than one
    character; [outstring[0]] is only reached when the text is not empty or the
    line is already too long (IndexError in that case). *)
Definition write (a : wargs) (s : str) (k : sink) : outcome sink :=
  if a_delim a && (1 <? length s)%nat then Raise ValueErr else
  let k := if a_mustbreak a then break_line k else k in
  let over := (k_pos k + Z.of_nat (length s) >? k_width k)%Z in
  if over && negb (a_delim a) && (length s =? 0)%nat then Raise IndexErr else
  let starts_nl := first_is nl s in
  let k1 := if over && negb (a_delim a) && negb starts_nl && a_canbreak a then break_line k else k in
  let suppress := over && (a_delim a || starts_nl) in
  (* requested column *)
  let at_col := (a_startcol a >? 0)%Z && (k_pos k1 <? a_startcol a)%Z in
  let k2 := if at_col then set_last (Some 32%N) (set_pos (a_startcol a) (put (spaces (a_startcol a - k_pos k1)) k1)) else k1 in
  let startcol := if (a_startcol a >? 0)%Z && negb (k_pos k1 <? a_startcol a)%Z then (-1)%Z else a_startcol a in
  (* tabs *)
  let next_stop := (((k_pos k2 / k_tab k2) + 1) * k_tab k2)%Z in
  let k3 := if (k_tab k2 >? 0)%Z && a_tab a && (startcol <? 0)%Z && (k_pos k2 <? next_stop)%Z
            then set_last (Some 32%N) (set_pos next_stop (put (spaces (next_stop - k_pos k2)) k2)) else k2 in
  (* indents *)
  let k4 := if a_newindent a
            then (if (top_indent k3 =? 0)%Z then set_indent (k_pos k3 :: k_indent k3) k3
                  else set_indent ((top_indent k3 + 2)%Z :: k_indent k3) k3)
            else if a_unindent a
            then match k_indent k3 with _ :: (_ :: _) as i => set_indent i k3 | _ => k3 end
            else k3 in
  let drop := suppress || match k_last k4 with Some c => cmem c [32; 10; 9]%N | None => false end in
  let k5 := if a_delim a && drop then k4 else put s k4 in
  let k6 := match after_break s with
            | Some n => set_pos (Z.of_nat n) k5
            | None => set_pos (k_pos k5 + Z.of_nat (length s))%Z k5
            end in
  Ret (match s with [] => k6 | _ => set_last (last_char s) k6 end).

(** Formatting hints from a template (2951-3030), without "reformat". *)
Record hint := Hint { h_name : str; h_delim : option str; h_col : option Z; h_pos : option Z }.
Definition no_hint : hint := Hint [] None None None.
Definition hint_delim (h : hint) : delim := h_delim h.
Definition hint_col (h : hint) : Z := match h_col h with Some c => c | None => (-1)%Z end.

Definition with_col (c : Z) : wargs := WArgs true false true false false false c.

(** format_value (2617-2652).  Lists and tables are written element by element. *)
Fixpoint format_value (g : grammar) (maxout : Z) (compound : bool) (h : hint) (v : value) (k : sink) : outcome sink :=
  match v with
  | VStr s => obind (format_string g maxout (hint_delim h) s) (fun t => write (with_col (hint_col h)) t k)
  | VNum p => write (with_col (hint_col h)) p k
  | VNone => Raise ValueErr
  | VList l | VSL l =>
      obind (write (WArgs true compound true true false false (hint_col h)) (u "[") (set_tab 0 k)) (fun k1 =>
      obind ((fix go (first : bool) (l : list value) (k : sink) : outcome sink :=
                match l with
                | [] => Ret k
                | x :: l' =>
                    obind (if first then Ret k
                           else write (WArgs false false false false false false (-1)) (list_delimiter g) k) (fun k =>
                    obind (format_value g maxout (negb first) no_hint x k) (fun k => go false l' k))
                end) true l k1) (fun k2 =>
      write (WArgs false false true false true false (-1)) (u "]") k2))
  | VDict d =>
      obind (write (WArgs false compound true true false false (hint_col h)) (u "{") (set_tab 0 k)) (fun k1 =>
      obind ((fix go (first : bool) (l : list (str * value)) (k : sink) : outcome sink :=
                match l with
                | [] => Ret k
                | (key, x) :: l' =>
                    obind (if first then Ret k else write plain_args (list_delimiter g) k) (fun k =>
                    obind (write (with_col (-1)) ([sq] ++ key ++ [sq; 58%N]) k) (fun k =>
                    obind (format_value g maxout false no_hint x k) (fun k => go false l' k)))
                end) true d k1) (fun k2 =>
      write (WArgs false false true false true false (-1)) (u "}") k2))
  end.

(** format_packet_item (2696-2706): texts without permission to break the line. *)
Definition format_packet_item (g : grammar) (maxout : Z) (h : hint) (v : value) (k : sink) : outcome sink :=
  match v with
  | VStr s => obind (format_string g maxout (hint_delim h) s)
                (fun t => write (WArgs false false true false false false (hint_col h)) t k)
  | _ => format_value g maxout false h v k
  end.

Definition delim_args : wargs := WArgs true false false false false true (-1).
Definition bare_args : wargs := WArgs false false false false false false (-1).

(** Hints are looked up by the dataname: the first for items (2584, compared
    without case), the last for loops (2662, 2683: dict of a list of pairs). *)
Definition item_hint (hs : list hint) (name : str) : hint :=
  match filter (fun h => str_eqb (lower (h_name h)) (lower name)) hs with h :: _ => h | [] => no_hint end.
Definition loop_hint (hs : list hint) (name : str) : hint :=
  match filter (fun h => str_eqb (h_name h) name) (rev hs) with h :: _ => h | [] => no_hint end.

(** format_names (2659-2668). *)
Fixpoint format_names (hs : list hint) (indent : Z) (b : block) (names : list str) (k : sink) : outcome sink :=
  match names with
  | [] => Ret k
  | n :: names' =>
      let ind := match h_pos (loop_hint hs n) with Some p => p | None => indent end in
      match dget str_eqb n (b_true b) with
      | None => Raise KeyErr
      | Some t =>
          obind (write bare_args (spaces ind) k) (fun k =>
          obind (write bare_args t k) (fun k =>
          obind (write bare_args [nl] k) (fun k => format_names hs indent b names' k)))
      end
  end.

(** One packet (2687-2691). *)
Fixpoint format_packet (g : grammar) (maxout : Z) (hs : list hint) (names : list str) (vs : list value) (k : sink)
  : outcome sink :=
  match vs, names with
  | [], _ => Ret k
  | v :: vs', n :: names' =>
      obind (format_packet_item g maxout (loop_hint hs n) v k) (fun k =>
      obind (write delim_args [32%N] k) (fun k => format_packet g maxout hs names' vs' k))
  | _ :: _, [] => Raise IndexErr
  end.
(** All packets (2684-2691): a newline before each but the first. *)
Fixpoint format_packets (g : grammar) (maxout : Z) (hs : list hint) (first : bool) (names : list str)
  (rows : list (list value)) (k : sink) : outcome sink :=
  match rows with
  | [] => Ret k
  | r :: rows' =>
      obind (if first then Ret k else write plain_args [nl] k) (fun k =>
      obind (format_packet g maxout hs names r k) (fun k => format_packets g maxout hs false names rows' k))
  end.

(** FindLoop (2135-2143): -1 if not in a loop. *)
Definition find_loop_no (name : str) (b : block) : Z :=
  match find_loop name b with Some k => k | None => (-1)%Z end.

(** create_ordering (3042-3056): the order of output and the block with its loop
    columns rearranged.  [item in self] holds for every stored name; FindLoop of
    an unlooped name is -1, but such a name is in item_order. *)
Fixpoint ordering_go (requested todo : list str) (new_order : list oitem) (b : block) : outcome (list oitem * block) :=
  match todo with
  | [] => Ret (new_order, b)
  | it :: todo' =>
      if mem oitem_eqb (ON (lower it)) (b_order b) then ordering_go requested todo' (new_order ++ [ON (lower it)]) b
      else if has_key it b then
        let k := find_loop_no it b in
        if mem oitem_eqb (OL k) new_order then ordering_go requested todo' new_order b
        else
          match dget Z.eqb k (b_loops b) with
          | None => Raise KeyErr
          | Some names =>
              let loop_order := filter (fun i => mem str_eqb i names) requested in
              let unordered := filter (fun i => negb (mem str_eqb i loop_order)) names in
              ordering_go requested todo' (new_order ++ [OL k])
                (set_loops (dset Z.eqb k (loop_order ++ unordered) (b_loops b)) b)
          end
      else ordering_go requested todo' new_order b
  end.
Definition requested_order (hs : list hint) : list str :=
  filter (fun n => negb (str_eqb n (u "loop"))) (map h_name hs).
Definition full_order (hs : list hint) (b : block) : outcome (list oitem * list oitem * block) :=
  let req := requested_order hs in
  obind (ordering_go req req [] b) (fun x =>
  let extras := filter (fun i => negb (mem oitem_eqb i (fst x))) (b_order b) in
  Ret (fst x, extras, snd x)).

(** printsection (2567-2610): the items of an order, without a given sink. *)
Definition print_item (g : grammar) (maxout : Z) (hs : list hint) (indent : Z) (b : block) (it : oitem) (k : sink)
  : outcome sink :=
  match it with
  | ON n =>
      let h := item_hint hs n in
      let col := match h_col h with Some c => if (c <? 0)%Z then 40%Z else c | None => 40%Z end in
      let npos := match h_pos h with Some p => p | None => (-1)%Z end in
      obind (get_item n b) (fun v =>
      match dget str_eqb n (b_true b) with
      | None => Raise KeyErr
      | Some t =>
          obind (write (WArgs false true false false false false npos) t (set_tab col k)) (fun k =>
          obind (write delim_args [32%N] k) (fun k => format_value g maxout false h v k))
      end)
  | OL l =>
      let ind := match filter (fun h => str_eqb (h_name h) (u "loop")) hs with
                 | h :: _ => Z.max (match h_pos h with Some p => p | None => 0%Z end) 0
                 | [] => indent
                 end in
      match dget Z.eqb l (b_loops b) with
      | None => Raise KeyErr
      | Some names =>
          obind (write (WArgs false true false false false false ind) (u "loop_" ++ [nl]) (set_tab 10 k)) (fun k =>
          obind (format_names hs (indent + 2) b names k) (fun k =>
          obind (get_items names b) (fun vals =>
          obind (py_iters vals) (fun cols => format_packets g maxout hs true names (py_zip cols) k))))
      end
  end.
Fixpoint print_items (g : grammar) (maxout : Z) (hs : list hint) (indent : Z) (b : block) (its : list oitem) (k : sink)
  : outcome sink :=
  match its with
  | [] => Ret k
  | it :: its' => obind (print_item g maxout hs indent b it k) (fun k => print_items g maxout hs indent b its' k)
  end.
(** printsection() as called by __str__ (1523-1524): no block delimiters, no partial
    output. *)
Definition print_block (g : grammar) (maxout : Z) (hs : list hint) (b : block) : outcome str :=
  obind (full_order hs b) (fun x =>
  match x with (new_order, extras, b') =>
    obind (write (WArgs true false true false false false (-1)) [] new_sink) (fun k =>
    obind (print_items g maxout hs 0 b' (new_order ++ extras) k) (fun k => Ret (k_out k)))
  end).

(** Any number of calls of write. *)
Fixpoint write_all (ops : list (wargs * str)) (k : sink) : outcome sink :=
  match ops with
  | [] => Ret k
  | (a, s) :: ops' => obind (write a s k) (write_all ops')
  end.
