(** Whole files: ReadStar (src/StarFile.nw 998-1153), the semantic actions of the
    grammars that build the collection (src/YappsStarParser.nw 340-358, 417-423,
    430-435, 460-464, 496-515, 561-567) and WriteOut (src/StarFile.nw 837-911).
    No proofs here.

    Simplifications.  The text is given decoded (opening, decoding and the latin1
    fallback are left out) and [scantype] is 'standard'.  The actions of a data block
    are run after the whole data block has been parsed: if a data block has both a
    syntax error and a semantic error, the syntax error is reported.  What a failed
    attempt has already added to [prepared] stays there, as in the code, as far as
    completed data blocks are concerned.  Positions and warnings that are printed
    are left out. *)
From Coq Require Import String Ascii List NArith ZArith Bool.
From Verif Require Import PyBase StarBlockModel FoldModel ReadModel ScanModel FormatModel WriteModel ParseModel CollectionModel.
Import ListNotations.

(** [s.split(sep)] for a separator that is not empty: leftmost occurrences. *)
Fixpoint split_on (fuel : nat) (sep acc s : str) : list str :=
  match fuel, s with
  | Datatypes.S f, c :: r =>
      if starts_with sep s then rev acc :: split_on f sep [] (skipn (length sep) s)
      else split_on f sep (c :: acc) r
  | _, _ => [rev acc]
  end.
(** Binary sections are left out (1091-1095): the pieces 0, 2, 4, ... *)
Fixpoint every_other (l : list str) : str :=
  match l with
  | _ :: x :: r => u " (binary omitted)" ++ x ++ every_other r
  | _ => []
  end.
Definition excise (s : str) : str :=
  match split_on (length s) (u "-BINARY-FORMAT-SECTION-") [] s with
  | [] => []
  | x :: r => x ++ every_other r
  end.
(** [text[:text.find(chr(26))]] if there is one (1097-1099). *)
Fixpoint cut_z (s : str) : str :=
  match s with
  | [] => []
  | c :: r => if (c =? 26)%N then [] else c :: cut_z r
  end.
(** Lines that are too long (1100-1105): the number of the first one. *)
Definition too_long (maxlength : Z) (s : str) : option nat :=
  if (0 <? maxlength)%Z then
    match filter (fun l => (maxlength <? Z.of_nat (length l))%Z) (split_nl s) with
    | [] => None
    | l :: _ => option_map Datatypes.S (index_of str_eqb l (split_nl s))
    end
  else None.

Definition magic : str := u "#\#CIF_2.0".
(** The grammars that are tried (1040-1051, 1107-1110); [None] is 'auto'. *)
Definition try_list (req : option grammar) : list grammar :=
  match req with None => [G20; G11; G10] | Some g => [g] end.
Definition is_g20 (g : grammar) : bool := match g with G20 => true | _ => false end.
Definition attempts (req : option grammar) (s : str) : list grammar :=
  if str_eqb (firstn 10 s) magic then try_list req
  else filter (fun g => negb (is_g20 g)) (try_list req).

(** [grammar_name in ['2.0','STAR2']] *)
Definition unicode_grammar (g : grammar) : bool := match g with G20 | GS2 => true | _ => false end.

(** Items go to a block of the collection under construction: [target] is the text
    in [savebc[savehead]] or [thisbc[heading]], or the key of the stored block. *)
Definition add_items (target : str) (l : list item) (c : coll) : outcome coll :=
  match c_get target c with
  | Raise e => Raise e
  | Ret b => match read_items l b with
             | (_, Raise e) => Raise e
             | (b', Ret _) => Ret (set_dict (dset str_eqb (lower target) b' (c_dict c)) c)
             end
  end.
(** merge_fast with a parent; the key under which the parent block is found
    afterwards (696-712): the block object itself does not change. *)
Definition merged_key (k : str) (n c : coll) : str :=
  match c_std c with
  | StdNone => k
  | _ => match merge_dups (filter (fun x => smem x (c_lower n)) (c_lower c)) (Some k) c n with
         | (_, _, Ret (Some k')) => k'
         | _ => k
         end
  end.
Definition add_frame (k : str) (n c : coll) : outcome (coll * str) :=
  match merge_fast (Some k) n c with
  | (_, Raise e) => Raise e
  | (c', Ret _) => Ret (c', merged_key k n c)
  end.

(** Contents of a save frame: items go to [savebc[savehead]], nested frames are
    merged with the stored block as parent.  [maxn] is the length limit on names of
    a new block of type prepared.blocktype. *)
Section Build.
Context (g : grammar) (maxn : Z).
Fixpoint build_frame (x : content) : outcome coll :=
  match x with
  | CItems _ => Raise TypeErr      (* not called for items *)
  | CFrame name l =>
      match new_block name (empty_block false maxn false) true None (new_coll StdCif Instance (unicode_grammar g)) with
      | (_, Raise e) => Raise e
      | (c, Ret k) =>
          (fix go (l : list content) (c : coll) (k : str) : outcome coll :=
             match l with
             | [] => Ret c
             | y :: r =>
                 match y with
                 | CItems its => obind (add_items name its c) (fun c => go r c k)
                 | CFrame _ _ => obind (build_frame y) (fun n => obind (add_frame k n c) (fun x => go r (fst x) (snd x)))
                 end
             end) l c k
      end
  end.
(** The target of items in a data block: the stored block in grammars 2.0 and STAR2
    (352-358), but [thisbc[heading]] in grammars 1.0 and 1.1 (508-515). *)
Definition target (heading k : str) : str := if unicode_grammar g then k else heading.
Fixpoint build_contents (heading : str) (l : list content) (c : coll) (k : str) : outcome (coll * str) :=
  match l with
  | [] => Ret (c, k)
  | CItems its :: r => obind (add_items (target heading k) its c) (fun c => build_contents heading r c k)
  | x :: r =>
      obind (build_frame x) (fun n =>
      obind (add_frame k n c) (fun y => build_contents heading r (fst y) (snd y)))
  end.
(** At the end the name lengths of the data block (2.0, STAR2) or of whatever is
    called [heading] (1.0, 1.1) are checked. *)
Definition build_dblock (sd : standard) (d : dblock) : outcome coll :=
  match new_block (d_name d) (empty_block false maxn false) true None (new_coll sd Instance true) with
  | (_, Raise e) => Raise e
  | (c, Ret k) =>
      obind (build_contents (d_name d) (d_contents d) c k) (fun x =>
      match c_get (target (d_name d) (snd x)) (fst x) with
      | Raise e => Raise e
      | Ret b => match setmaxnamelength (b_max b) b with
                 | (_, Raise e) => Raise e
                 | (b', Ret _) => Ret (set_dict (dset str_eqb (lower (target (d_name d) (snd x))) b' (c_dict (fst x))) (fst x))
                 end
      end)
  end.
Fixpoint merge_blocks (ds : list dblock) (p : coll) : coll * outcome unit :=
  match ds with
  | [] => (p, Ret tt)
  | d :: r =>
      match build_dblock (c_std p) d with
      | Raise e => (p, Raise e)
      | Ret bc => match merge_fast None bc p with
                  | (p', Raise e) => (p', Raise e)
                  | (p', Ret _) => merge_blocks r p'
                  end
      end
  end.
End Build.

(** The data blocks that are completely parsed, and how the parse ends (rule input,
    340-350, 496-506).  [parse_file] gives the data blocks of a successful parse. *)
Fixpoint parse_upto (fuel : nat) (g : grammar) (acc : list dblock) (st : pstate) : list dblock * outcome unit :=
  match peek g [DataHeading; End] st with
  | Raise e => (acc, Raise e)
  | Ret (t, st1) =>
      if tok_eqb t DataHeading then
        match fuel with
        | O => (acc, Raise OutOfFuel)
        | Datatypes.S f =>
            match parse_dblock g st1 with
            | Raise e => (acc, Raise e)
            | Ret y => parse_upto f g (acc ++ [fst y]) (snd y)
            end
        end
      else match take g End st1 with
           | Raise e => (acc, Raise e)
           | Ret _ => (acc, Ret tt)
           end
  end.
Definition parse_input (g : grammar) (maxn : Z) (s : str) (p : coll) : coll * outcome unit :=
  let ds := parse_upto (length s) g [] (PS s None) in
  match merge_blocks g maxn (fst ds) p with
  | (p', Raise e) => (p', Raise e)
  | (p', Ret _) =>
      match snd ds with
      | Raise e => (p', Raise e)
      | Ret _ => (c_set_overwrite true p', Ret tt)
      end
  end.

(** The attempts (1111-1143): syntax errors and ValueError lead to the next one. *)
Fixpoint try_grammars (gs : list grammar) (maxn : Z) (s : str) (p : coll) : coll * outcome unit :=
  match gs with
  | [] => (p, Raise StarErr)
  | g :: r =>
      match parse_input g maxn s (c_set_characterset (unicode_grammar g) p) with
      | (p', Ret _) => (c_set_grammar g p', Ret tt)
      | (p', Raise SyntaxErr) | (p', Raise ValueErr) => try_grammars r maxn s p'
      | (p', Raise e) => (p', Raise e)
      end
  end.

(** ReadStar, for a text that is decoded already.  The result [true] is the
    collection [prepared], [false] is None (1086: set_uri returns nothing). *)
Record ropts := ROpts { ro_grammar : option grammar; ro_maxlength : Z; ro_cbf : bool; ro_maxn : Z }.
Definition input_text (o : ropts) (s : str) : str := cut_z (if ro_cbf o then excise s else s).
Definition read_star (o : ropts) (s : str) (p : coll) : coll * outcome bool :=
  match s with
  | [] => (p, Ret false)
  | _ =>
      let t := input_text o s in
      match too_long (ro_maxlength o) t with
      | Some _ => (p, Raise StarErr)
      | None =>
          match try_grammars (attempts (ro_grammar o) t) (ro_maxn o) t p with
          | (p', Raise e) => (p', Raise e)
          | (p', Ret _) => (set_scope (c_scope p) (set_scope Dictionary p'), Ret true)
          end
      end
  end.

(** create_ordering with partial output (3042-3098).  [cut_pos] is the position of
    the dataname that partial output starts from or finishes at. *)
Definition cut_pos (req : list str) (new_order out : list oitem) (name : str) (b : block) : outcome nat :=
  match index_of str_eqb name req with
  | None => Raise ValueErr
  | Some i =>
      let later := skipn i req in
      let loop_order := filter (fun k => (0 <? k)%Z) (map (fun n => find_loop_no n b) later) in
      let pos := match filter (fun x => match x with ON n => mem str_eqb n later | OL _ => false end) out with
                 | [] => length new_order
                 | x :: _ => match index_of oitem_eqb x out with Some p => p | None => length new_order end
                 end in
      match loop_order with
      | [] => Ret pos
      | k :: _ => match index_of oitem_eqb (OL k) out with
                  | Some p => Ret (Nat.min pos p)
                  | None => Raise ValueErr
                  end
      end
  end.
Definition start_from (req : list str) (new_order extras : list oitem) (name : str) (b : block) : outcome (list oitem) :=
  let out := new_order ++ extras in
  if mem str_eqb name req then
    obind (cut_pos req new_order out name b) (fun p => Ret (skipn p out))
  else if mem oitem_eqb (ON name) extras then
    match index_of oitem_eqb (ON name) out with Some p => Ret (skipn p out) | None => Raise ValueErr end
  else Ret [].
Definition finish_at (req : list str) (new_order extras : list oitem) (name : str) (b : block) : outcome (list oitem) :=
  let out := new_order ++ extras in
  if mem str_eqb name req then
    obind (cut_pos req new_order out name b) (fun p => Ret (firstn p out))
  else if mem oitem_eqb (ON name) extras then
    match index_of oitem_eqb (ON name) out with Some p => Ret (firstn p out) | None => Raise ValueErr end
  else Ret out.
Inductive part := PStart (name : str) | PFinish (name : str).
(** printsection(finish_at=...) and printsection(start_from=...); the block after it,
    as create_ordering rearranges its loops. *)
Definition print_part (g : grammar) (maxout : Z) (hs : list hint) (p : part) (b : block) : outcome (str * block) :=
  let req := requested_order hs in
  obind (full_order hs b) (fun x =>
  match x with (new_order, extras, b') =>
    obind (match p with
           | PStart n => start_from req new_order extras n b'
           | PFinish n => finish_at req new_order extras n b'
           end) (fun out =>
    obind (write (WArgs true false true false false false (-1)) [] new_sink) (fun k =>
    obind (print_items g maxout hs 0 b' out k) (fun k => Ret (k_out k, b'))))
  end).

(** WriteOut (837-896).  [hs] is the master template, [maxout] the attribute
    maxoutlength, [comment] the comment or the header comment. *)
Definition app_name : str := u "_dictionary_valid.application".
Definition file_head (g : grammar) (comment : str) : str :=
  (if is_g20 g && negb (str_eqb (firstn 10 comment) magic) then magic ++ [10%N] else []) ++ comment.
Definition id_of (k : str) (c : coll) : outcome str :=
  match dget str_eqb k (c_child c) with Some p => Ret (pc_id p) | None => Raise KeyErr end.
Section Write.
Context (maxout : Z) (hs : list hint).
Definition body_text (k : str) (c : coll) : outcome str :=
  obind (c_get k c) (fun b => print_block (c_gram c) maxout hs b).
Fixpoint write_secs (l : list wsec) (c : coll) : outcome str :=
  match l with
  | [] => Ret []
  | WHead k :: r =>
      obind (id_of k c) (fun n => obind (write_secs r c) (fun t =>
      Ret ([10%N] ++ u "data_" ++ n ++ [10%N] ++ t)))
  | WFrame k :: r =>
      obind (id_of k c) (fun n => obind (body_text k c) (fun s => obind (write_secs r c) (fun t =>
      Ret ([10; 10]%N ++ u "save_" ++ n ++ [10%N] ++ s ++ [10; 10]%N ++ u "save_" ++ [10%N] ++ t))))
  | WBody k :: r => obind (body_text k c) (fun s => obind (write_secs r c) (fun t => Ret (s ++ t)))
  | WBodyTo k :: r =>
      obind (c_get k c) (fun b => obind (print_part (c_gram c) maxout hs (PFinish app_name) b) (fun x =>
      obind (write_secs r (set_dict (dset str_eqb k (snd x) (c_dict c)) c)) (fun t => Ret (fst x ++ t))))
  | WBodyFrom k :: r =>
      obind (c_get k c) (fun b => obind (print_part (c_gram c) maxout hs (PStart app_name) b) (fun x =>
      obind (write_secs r c) (fun t => Ret (fst x ++ t))))
  end.
(** Nested save frames of STAR2 (872-877, 898-911). *)
Fixpoint nested_text (indent : str) (x : nsec) (c : coll) : outcome str :=
  match x with
  | NFrame k inner =>
      obind (id_of k c) (fun n => obind (body_text k c) (fun s =>
      obind ((fix go (l : list nsec) : outcome str :=
                match l with
                | [] => Ret []
                | y :: r => obind (nested_text indent y c) (fun a => obind (go r) (fun t => Ret (a ++ indent ++ u "save_" ++ [10%N] ++ t)))
                end) inner) (fun f =>
      Ret ([10%N] ++ u "save_" ++ n ++ [10%N] ++ (match c_std c with StdDic => s ++ f | _ => f ++ s end) ++ [10%N]))))
  end.
Fixpoint write_nested (tops : list str) (c : coll) : outcome str :=
  match tops with
  | [] => Ret []
  | k :: r =>
      obind (id_of k c) (fun n =>
      obind (c_get k c) (fun b =>
      obind (nest_go (length (c_child c)) (c_child c) k) (fun fs =>
      obind ((fix go (l : list nsec) : outcome str :=
                match l with
                | [] => Ret []
                | y :: r => obind (nested_text (repeat 32%N 8) y c) (fun a => obind (go r) (fun t => Ret ([10%N] ++ a ++ u "save_" ++ [10%N] ++ t)))
                end) fs) (fun f =>
      obind (match c_std c with
             | StdDic =>
                 obind (print_part (c_gram c) maxout hs (PFinish app_name) b) (fun x =>
                 obind (print_part (c_gram c) maxout hs (PStart app_name) (snd x)) (fun y => Ret (fst x ++ f ++ fst y)))
             | _ => obind (print_block (c_gram c) maxout hs b) (fun s => Ret (f ++ s))
             end) (fun s =>
      obind (write_nested r c) (fun t => Ret ([10%N] ++ u "data_" ++ n ++ [10%N] ++ s ++ t)))))))
  end.
Definition write_out (comment : str) (c : coll) : outcome str :=
  obind (match c_gram c with
         | GS2 => obind (top_blocks (c_order c) (c_child c)) (fun tops => write_nested tops c)
         | _ => obind (write_plan c) (fun l => write_secs l c)
         end) (fun t => Ret (file_head (c_gram c) comment ++ t)).
End Write.
