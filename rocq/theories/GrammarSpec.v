(** What a file is, without a parser: tokens with blanks and comments between them,
    and the sequences of tokens that stand for values, items, frames and data blocks
    (the rules of src/YappsStarParser.nw 337-567). *)
From Coq Require Import String Ascii List NArith Bool.
From Verif Require Import PyBase RegexModel ScanModel ScanSpec ReadModel ParseModel ParseSpec.
Import ListNotations.

(** Blanks and comments before the text [r].  A line end before a semicolon is not
    passed over; a comment goes on to the end of its line. *)
Inductive between : str -> str -> Prop :=
| b_nil r : between [] r
| b_blank c w r : c = 32%N \/ c = 9%N -> between w r -> between (c :: w) r
| b_line c w r : c = 10%N \/ c = 13%N -> hd_error (w ++ r) <> Some 59%N -> between w r -> between (c :: w) r
| b_comment x w r : ~ In 10%N x -> (w ++ r = [] \/ (exists c v, w ++ r = c :: v /\ (c = 10%N \/ c = 13%N))) ->
    between w r -> between (35%N :: x ++ w) r.

Definition lexeme : Type := tok * str.
(** The text [s] is the tokens [ts] with blanks and comments between them, and
    then [s']. *)
Inductive laid (g : grammar) : list lexeme -> str -> str -> Prop :=
| laid_end w s : between w s -> laid g [] (w ++ s) s
| laid_tok w t m s ts s' : between w (m ++ s) -> matches g t (m ++ s) m s -> laid g ts s s' -> laid g ((t, m) :: ts) (w ++ m ++ s) s'.

Definition one (t : tok) (m : str) : list lexeme := [(t, m)].

Section Grammar.
Context (g : grammar).
Definition cif2 : Prop := g = G20 \/ g = GS2.
Inductive key_toks : str -> list lexeme -> Prop :=
| key_triple m : key_toks (striptriple m) (one TripleQ m)
| key_single m : key_toks (stripstring m) (one SingleQ m).
Inductive value_toks : value -> list lexeme -> Prop :=
| v_plain m : value_toks (VStr (match g with G10 | G11 => stripstring m | _ => m end)) (one Value1 m)
| v_text m ls e : value_toks (VStr (stripextras (m ++ concat ls ++ e))) (one StartSc m ++ map (fun l => (ScLine, l)) ls ++ one EndSc e)
| v_quoted k ts : cif2 -> key_toks k ts -> value_toks (VStr k) ts
| v_list o c l ts : cif2 -> list_toks l ts -> value_toks (VSL l) (one OSquare o ++ ts ++ one CSquare c)
| v_table o c l ts : cif2 -> table_toks l ts -> value_toks (VDict (pairs_dict l [])) (one OCurl o ++ ts ++ one CCurl c)
(** The elements; in STAR2 a comma may stand between them. *)
with list_toks : list value -> list lexeme -> Prop :=
| l_nil : list_toks [] []
| l_next l ts v vs : list_toks l ts -> value_toks v vs -> list_toks (l ++ [v]) (ts ++ vs)
| l_comma l ts m v vs : g = GS2 -> l <> [] -> list_toks l ts -> value_toks v vs -> list_toks (l ++ [v]) (ts ++ one Comma m ++ vs)
(** The pairs.  In STAR2 they are to be separated by commas: a pair without a comma
    before it starts the table anew. *)
with table_toks : list (str * value) -> list lexeme -> Prop :=
| t_nil : table_toks [] []
| t_next l ts k kt c v vs : g = G20 \/ l = [] -> table_toks l ts -> key_toks k kt -> value_toks v vs -> table_toks (l ++ [(k, v)]) (ts ++ kt ++ one Colon c ++ vs)
| t_comma l ts m k kt c v vs : g = GS2 -> l <> [] -> table_toks l ts -> key_toks k kt -> value_toks v vs ->
    table_toks (l ++ [(k, v)]) (ts ++ one Comma m ++ kt ++ one Colon c ++ vs)
| t_anew l ts k kt c v vs : g = GS2 -> table_toks l ts -> key_toks k kt -> value_toks v vs -> table_toks [(k, v)] (ts ++ kt ++ one Colon c ++ vs).

Inductive values_toks : list value -> list lexeme -> Prop :=
| vs_nil : values_toks [] []
| vs_cons v ts vs ts' : value_toks v ts -> values_toks vs ts' -> values_toks (v :: vs) (ts ++ ts').
Inductive item_toks : item -> list lexeme -> Prop :=
| i_pair n v ts : value_toks v ts -> item_toks (Kv n v) (one DataName n ++ ts)
| i_loop m ns vs ts : vs <> [] -> values_toks vs ts -> item_toks (Lp ns vs) (one LBlock m ++ map (fun n => (DataName, n)) ns ++ ts).
Inductive items_toks : list item -> list lexeme -> Prop :=
| is_nil : items_toks [] []
| is_cons i ts l ts' : item_toks i ts -> items_toks l ts' -> items_toks (i :: l) (ts ++ ts').
(** Frames stand inside frames except in CIF2. *)
Inductive contents_toks : bool -> list content -> list lexeme -> Prop :=
| c_nil b : contents_toks b [] []
| c_items b l ts cs ts' : l <> [] -> items_toks l ts -> contents_toks b cs ts' -> contents_toks b (CItems l :: cs) (ts ++ ts')
| c_frame b h l ts e cs ts' : (b = true -> g <> G20) -> contents_toks true l ts -> contents_toks b cs ts' ->
    contents_toks b (CFrame (skipn 5 h) l :: cs) (one SaveHeading h ++ ts ++ one SaveEnd e ++ ts').
Inductive blocks_toks : list dblock -> list lexeme -> Prop :=
| bs_nil : blocks_toks [] []
| bs_cons h cs ts bs ts' : contents_toks false cs ts -> blocks_toks bs ts' -> blocks_toks (DBlock (skipn 5 h) cs :: bs) (one DataHeading h ++ ts ++ ts').
End Grammar.

(** The datanames, and the names of blocks and frames, of what was read. *)
Definition item_names (i : item) : list str := match i with Kv n _ => [n] | Lp ns _ => ns end.
Fixpoint content_names (c : content) : list str :=
  match c with CItems l => flat_map item_names l | CFrame _ l => flat_map content_names l end.
Fixpoint frame_names (c : content) : list str :=
  match c with CItems _ => [] | CFrame n l => n :: flat_map frame_names l end.
Definition all_datanames (ds : list dblock) : list str := flat_map (fun d => flat_map content_names (d_contents d)) ds.
Definition all_headings (ds : list dblock) : list str := flat_map (fun d => d_name d :: flat_map frame_names (d_contents d)) ds.

(** What the texts of the tokens look like. *)
Definition quote (q : N) : Prop := q = 39%N \/ q = 34%N.
Definition eol (c : N) : Prop := c = 10%N \/ c = 13%N.
Definition bracket (c : N) : Prop := In c [91; 93; 123; 125]%N.
Definition bare (g : grammar) (m : str) : Prop :=
  Forall (fun c => is_space c = false) m /\ (exists c r, m = c :: r /\ ~ quote c /\ ~ In c [35; 36; 95]%N) /\ (cif2 g -> Forall (fun c => ~ bracket c) m).
Definition token_text (g : grammar) (t : tok) (m : str) : Prop :=
  match t with
  | Colon => m = [58%N] | Comma => m = [44%N]
  | OSquare => m = [91%N] | CSquare => m = [93%N] | OCurl => m = [123%N] | CCurl => m = [125%N]
  | LBlock => lower m = u "loop_" | SaveEnd => lower m = u "save_"
  | SaveHeading => exists w n, m = w ++ n /\ lower w = u "save_" /\ readable_heading g n
  | DataHeading => exists w n, m = w ++ n /\ lower w = u "data_" /\ readable_heading g n
  | DataName => readable_name g m
  | StartSc => exists e x y, m = e ++ 59%N :: x ++ y /\ (e = [10%N] \/ e = [13; 10]%N) /\ Forall (fun c => ~ eol c) x /\ y <> [] /\ Forall eol y
  | ScLine => exists x y, m = x ++ y /\ hd_error x <> Some 59%N /\ x <> [] /\ Forall (fun c => ~ eol c) x /\ y <> [] /\ Forall eol y
  | EndSc => m = [59%N]
  | TripleQ => exists q x, quote q /\ m = [q; q; q] ++ x ++ [q; q; q]
  | SingleQ => exists q x k, quote q /\ m = q :: x ++ q :: repeat q k /\ Forall (fun c => ~ eol c /\ c <> q) x
  | Value1 => bare g m \/ (~ cif2 g /\ exists q x, quote q /\ m = q :: x ++ [q] /\ Forall (fun c => ~ eol c) x)
  | End => m = []
  | _ => True
  end.
