(** What an expression of dREL says: the rows of tokens that stand for a tree,
    by a table of operators that bind more or less closely. *)
From Coq Require Import String Ascii List NArith PeanoNat Bool.
From Verif Require Import PyBase LexModel DrelModel.
Import ListNotations.
Open Scope nat_scope.

(** An operator: how closely it binds (0 the least, 8 a single thing), how
    closely its left and its right side must bind at least, its tokens and its
    name in the tree. *)
Inductive operator : nat -> nat -> nat -> list (kind * str) -> str -> Prop :=
| O_or k v : k = OR \/ k = BADOR -> operator 0 0 1 [(k, v)] (u "or")
| O_and k v : k = AND \/ k = BADAND -> operator 1 1 2 [(k, v)] (u "and")
| O_compare k v : In k [LIT 60; LIT 62; GTE; LTE; NEQ; ISEQUAL; IN_] -> operator 3 4 4 [(k, v)] v
| O_not_in v w : operator 3 4 4 [(NOT, v); (IN_, w)] (u "not in")
| O_sum k v : In k [LIT 43; LIT 45] -> operator 4 4 5 [(k, v)] v
| O_product k v : In k [LIT 42; LIT 47; LIT 94; LIT 38; LIT 124] -> operator 5 5 6 [(k, v)] v
| O_power v : operator 7 8 6 [(POWER, v)] (u "**").

Definition newlines (ts : list (kind * str)) : Prop := Forall (fun t => fst t = NEWLINE) ts.

Inductive a_string : str -> list (kind * str) -> Prop :=
| A_plain k s : k = SHORTSTRING \/ k = LONGSTRING -> a_string s [(k, s)]
| A_prefix k p s : k = SHORTSTRING \/ k = LONGSTRING -> a_string (p ++ s) [(STRPREFIX, p); (k, s)].

Definition number_kinds : list kind := [INTEGER; HEXINT; OCTINT; BININT; REAL; IMAGINARY].

(** [says n c ts]: the tokens [ts] stand for [c], which binds at least as
    closely as [n]. *)
Inductive says : nat -> cx -> list (kind * str) -> Prop :=
| Y_closer n c ts : n < 8 -> says (S n) c ts -> says n c ts
| Y_op n l r op s a b ta tb : operator n l r op s -> says l a ta -> says r b tb -> says n (XBin s a b) (ta ++ op ++ tb)
| Y_not v a ts : says 2 a ts -> says 2 (XNot a) ((NOT, v) :: ts)
| Y_sign k v a ts : In k [LIT 43; LIT 45] -> says 6 a ts -> says 6 (XSign v a) ((k, v) :: ts)
| Y_name s : says 8 (XName s) [(ID, s)]
| Y_tag s : says 8 (XTag s) [(ITEM_TAG, s)]
| Y_number k v : In k number_kinds -> says 8 (XLit v) [(k, v)]
| Y_string s ts : a_string s ts -> says 8 (XLit s) ts
| Y_group0 v w : says 8 (XGroup []) [(OPEN_PAREN, v); (CLOSE_PAREN, w)]
| Y_group v w l ts : says_all true l ts -> says 8 (XGroup l) ((OPEN_PAREN, v) :: ts ++ [(CLOSE_PAREN, w)])
| Y_conv v w l ts : says_all true l ts -> says 8 (XConv l) ((LIT 96, v) :: ts ++ [(LIT 96, w)])
| Y_list0 v w n1 : newlines n1 -> says 8 (XList []) ((LIT 91, v) :: n1 ++ [(LIT 93, w)])
| Y_list v w n1 n2 l ts : newlines n1 -> newlines n2 -> says_all true l ts ->
    says 8 (XList l) ((LIT 91, v) :: n1 ++ ts ++ n2 ++ [(LIT 93, w)])
| Y_table0 v w n1 : newlines n1 -> says 8 (XTable []) ((LIT 123, v) :: n1 ++ [(LIT 125, w)])
| Y_table v w n1 n2 l ts : newlines n1 -> newlines n2 -> says_entries l ts ->
    says 8 (XTable l) ((LIT 123, v) :: n1 ++ ts ++ n2 ++ [(LIT 125, w)])
| Y_attr p s v ts : says 8 p ts -> says 8 (XAttr p s) (ts ++ [(LIT 46, v); (ID, s)])
| Y_attr_number p v ts : says 8 p ts -> says 8 (XAttr p (skipn 1 v)) (ts ++ [(REAL, v)])
| Y_subscript p e v w ts te : says 8 p ts -> says 0 e te -> says 8 (XSub p e) (ts ++ (LIT 91, v) :: te ++ [(LIT 93, w)])
| Y_range p a b c v w ts te : says 8 p ts -> says_item (IRange a b c) te ->
    says 8 (XRange p a b c) (ts ++ (LIT 91, v) :: te ++ [(LIT 93, w)])
| Y_slices p l v w ts te : says 8 p ts -> says_items l te -> 2 <= length l ->
    says 8 (XSlices p l) (ts ++ (LIT 91, v) :: te ++ [(LIT 93, w)])
| Y_call0 f v w : says 8 (XCall f []) [(ID, f); (OPEN_PAREN, v); (CLOSE_PAREN, w)]
| Y_call f v w l ts : says_all false l ts -> says 8 (XCall f l) ((ID, f) :: (OPEN_PAREN, v) :: ts ++ [(CLOSE_PAREN, w)])

(** Expressions with commas between them; newlines may follow a comma if [nl]. *)
with says_all : bool -> list cx -> list (kind * str) -> Prop :=
| Y_last nl e te : says 0 e te -> says_all nl [e] te
| Y_next nl e l v n te ts : says 0 e te -> newlines n -> (nl = false -> n = []) -> says_all nl l ts ->
    says_all nl (e :: l) (te ++ (LIT 44, v) :: n ++ ts)

with says_entries : list (str * cx) -> list (kind * str) -> Prop :=
| Y_entry k e v tk te : a_string k tk -> says 0 e te -> says_entries [(k, e)] (tk ++ (LIT 58, v) :: te)
| Y_entries k e l v w n tk te ts : a_string k tk -> says 0 e te -> newlines n -> says_entries l ts ->
    says_entries ((k, e) :: l) (tk ++ (LIT 58, v) :: te ++ (LIT 44, w) :: n ++ ts)

with says_item : citem -> list (kind * str) -> Prop :=
| Y_single e te : says 0 e te -> says_item (IExpr e) te
| Y_short a b v ta tb : says_opt a ta -> says_opt b tb -> says_item (IRange a b None) (ta ++ (LIT 58, v) :: tb)
| Y_long a b c v w ta tb tc : says_opt a ta -> says_opt b tb -> says 0 c tc ->
    says_item (IRange a b (Some c)) (ta ++ (LIT 58, v) :: tb ++ (LIT 58, w) :: tc)

with says_opt : option cx -> list (kind * str) -> Prop :=
| Y_none : says_opt None []
| Y_some e te : says 0 e te -> says_opt (Some e) te

with says_items : list citem -> list (kind * str) -> Prop :=
| Y_item i ti : says_item i ti -> says_items [i] ti
| Y_items i l v ti ts : says_item i ti -> says_items l ts -> says_items (i :: l) (ti ++ (LIT 44, v) :: ts).

Scheme says_ind2 := Minimality for says Sort Prop
with says_all_ind2 := Minimality for says_all Sort Prop
with says_entries_ind2 := Minimality for says_entries Sort Prop
with says_item_ind2 := Minimality for says_item Sort Prop
with says_opt_ind2 := Minimality for says_opt Sort Prop
with says_items_ind2 := Minimality for says_items Sort Prop.
Combined Scheme says_mut from says_ind2, says_all_ind2, says_entries_ind2, says_item_ind2, says_opt_ind2, says_items_ind2.
