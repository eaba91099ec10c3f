(** What loading a DDL1 or DDL2 dictionary should do; of the models only the data
    types, the attribute names and the reading of an attribute (tget) are used. *)
From Coq Require Import String Ascii List NArith ZArith QArith Bool.
From Verif Require Import PyBase LoopSpec NumberSpec ValidateModel ValidateSpec EditModel DdlModel.
Import ListNotations.

(** A name that can be the name of a block: no blanks, at most 75 characters. *)
Definition plain_name (s : str) : Prop := ~ In 32%N s /\ ~ In 9%N s /\ (length s <= 75)%nat.

(** The definitions that one definition stands for: itself under its name, or one for
    each of its names, which then has that name only. *)
Inductive stands_for : entry -> list (str * entry) -> Prop :=
| sf_one t ov s : tget n_name t = Some (VStr s) -> plain_name s -> stands_for (t, ov) [(lower s, (t, ov))]
| sf_many t ov l names : tget n_name t = Some (VList l) \/ tget n_name t = Some (VSL l) -> l = map VStr names -> Forall plain_name names ->
    stands_for (t, ov) (map (fun n => (lower n, (dset str_eqb n_name (VStr n) t, true))) names).
(** Blocks without a name stay as they are; the others are replaced by what they
    stand for. *)
Inductive renamed : defs -> defs -> defs -> Prop :=
| rn_nil : renamed [] [] []
| rn_keep k e d keep new : tget n_name (fst e) = None -> renamed d keep new -> renamed ((k, e) :: d) ((k, e) :: keep) new
| rn_move k e d keep new l : stands_for e l -> renamed d keep new -> renamed ((k, e) :: d) keep (l ++ new).

(** ** Ranges *)
(** A numeral that python reads too. *)
Definition readable (n : numeral) : Prop := proper n /\ n_su n = None /\ (forall l g x, n_exp n = Some (l, g, x) -> In l [101; 69]%N).
Definition end_text (o : option numeral) : str := match o with Some n => text n | None => [] end.
Definition range_text (lo up : option numeral) : str := end_text lo ++ 58%N :: end_text up.
Definition readable_end (o : option numeral) : Prop := match o with Some n => readable n | None => True end.
(** Not below the lower end and not above the upper one. *)
Definition between (lo up : option numeral) (x : Q) : Prop :=
  match lo with Some n => (number n <= x)%Q | None => True end /\ match up with Some n => (x <= number n)%Q | None => True end.
(** The lower end is not above the upper one. *)
Definition ordered (lo up : option numeral) : Prop := forall a b, lo = Some a -> up = Some b -> (number a <= number b)%Q.
(** Unknown, or a text beginning with a number between the ends. *)
Definition within_ends (lo up : option numeral) (v : value) : Prop :=
  unknown v \/ exists s n, v = VStr s /\ longest n s /\ between lo up (number n).

(** ** The attributes of one definition *)
Definition given (o : option value) (v : value) : value := match o with Some w => w | None => v end.
Definition overview (t : table) : Prop := tget n_category t = Some (VStr n_overview).
Record normalised (t t' : table) : Prop := {
  nm_kept : forall a, ~ In (lower a) [n_list; n_conditions; range_max; range_min; n_type; n_cat_id] -> tget a t' = tget a t;
  nm_list : tget n_list t' = Some (given (tget n_list t) (VStr (u "no")));
  nm_cond : tget n_conditions t' = Some (given (tget n_conditions t) (VStr (u "none")));
  nm_no_range : tget n_range t = None -> tget range_max t' = tget range_max t /\ tget range_min t' = tget range_min t;
  nm_range : forall lo up, readable_end lo -> readable_end up -> ordered lo up -> tget n_range t = Some (VStr (range_text lo up)) ->
      exists mins maxs lows ups, tget range_min t' = Some (VList mins) /\ tget range_max t' = Some (VList maxs)
        /\ Forall2 bound_of mins lows /\ Forall2 bound_of maxs ups
        /\ forall x, inside (combine lows ups) x <-> between lo up x;
  nm_type : tget n_construct t = None -> tget n_type t' = tget n_type t;
  nm_own_type : forall s, tget n_construct t <> None -> tget n_name t = Some (VStr s) -> tget n_type t' = Some (VStr (s ++ u "_type"));
  nm_not_cat : ~ overview t -> tget n_cat_id t' = tget n_cat_id t;
  nm_cat : overview t -> forall c pre post, tget n_name t = Some (VStr (c :: pre ++ 95%N :: post)) -> ~ In 95%N post ->
      tget n_cat_id t' = Some (VStr pre)
}.
(** A definition that can be normalised. *)
Record usable (t : table) : Prop := {
  us_range : tget n_range t = None \/ exists lo up, readable_end lo /\ readable_end up /\ tget n_range t = Some (VStr (range_text lo up));
  us_type : tget n_construct t = None \/ exists s c p, tget n_construct t = Some (VStr c) /\ tget n_name t = Some (VStr s) /\ tget n_type t = Some p;
  us_cat : overview t -> exists s, tget n_name t = Some (VStr s) /\ In 95%N s
}.
(** The types that definitions make for themselves: a row with name, construct and
    type for each one that has a construct. *)
Inductive own_types : defs -> list (str * str * value) -> Prop :=
| ot_nil : own_types [] []
| ot_none k t ov d rows : tget n_construct t = None -> own_types d rows -> own_types ((k, (t, ov)) :: d) rows
| ot_some k t ov d rows s c p : tget n_construct t = Some (VStr c) -> tget n_name t = Some (VStr s) -> tget n_type t = Some p -> own_types d rows ->
    own_types ((k, (t, ov)) :: d) ((s ++ u "_type", c ++ u "$", p) :: rows).

(** ** Categories *)
(** The categories named by definitions, in order. *)
Inductive categories : defs -> list str -> Prop :=
| ct_nil : categories [] []
| ct_none k t ov d l : tget n_category t = None -> categories d l -> categories ((k, (t, ov)) :: d) l
| ct_some k t ov d l c : tget n_category t = Some (VStr c) -> categories d l -> categories ((k, (t, ov)) :: d) (c :: l).
(** The categories that are described by a definition of their own: its name without
    the first character and without the last underscore and what follows. *)
Inductive overviews : defs -> list str -> Prop :=
| ov_nil : overviews [] []
| ov_none k t ov d l : ~ overview t -> overviews d l -> overviews ((k, (t, ov)) :: d) l
| ov_some k t ov d l c pre post : overview t -> tget n_name t = Some (VStr (c :: pre ++ 95%N :: post)) -> ~ In 95%N post -> overviews d l ->
    overviews ((k, (t, ov)) :: d) (pre :: l).
(** The first mention of each one that is not in a list. *)
Inductive missing : list str -> list str -> list str -> Prop :=
| ms_nil seen : missing seen [] []
| ms_old seen c l r : In c seen -> missing seen l r -> missing seen (c :: l) r
| ms_new seen c l r : ~ In c seen -> missing (seen ++ [c]) l r -> missing seen (c :: l) (c :: r).
(** A definition made for a category. *)
Definition made_name (c : str) : str := lower (95%N :: c ++ [95; 91; 93]%N).
Definition made_def (c : str) : entry := ([(n_category, VStr n_overview); (n_cat_id, VStr c); (n_type, VStr (u "null"))], true).

(** The dictionary after its definitions have been normalised: the same keys and
    flags in the same order. *)
Definition same_place (x y : str * entry) : Prop := fst x = fst y /\ snd (snd x) = snd (snd y) /\ normalised (fst (snd x)) (fst (snd y)).
Definition type_codes (rows : list (str * str * value)) : list value := map (fun r => VStr (fst (fst r))) rows.
Definition type_constructs (rows : list (str * str * value)) : list value := map (fun r => VStr (snd (fst r))) rows.
Definition type_prims (rows : list (str * str * value)) : list value := map snd rows.

(** ** What categories are told about their items *)
(** The identifiers, in order, of the items of a category that must be present. *)
Inductive needed (c : str) : list (str * table) -> list str -> Prop :=
| nd_nil : needed c [] []
| nd_in i t d l : tget n_mandatory t = Some (VStr (u "yes")) -> tget n_category t = Some (VStr c) -> needed c d l -> needed c ((i, t) :: d) (i :: l)
| nd_out i t d l : tget n_mandatory t <> Some (VStr (u "yes")) \/ tget n_category t <> Some (VStr c) -> needed c d l -> needed c ((i, t) :: d) l.
(** The identifiers of the items that say what makes a row unique, each followed by
    what it says. *)
Inductive unique_of (c : str) : list (str * table) -> list str -> Prop :=
| uq_nil : unique_of c [] []
| uq_in i t d l s : tget n_unique t = Some (VStr s) -> tget n_category t = Some (VStr c) -> unique_of c d l -> unique_of c ((i, t) :: d) (i :: s :: l)
| uq_out i t d l : tget n_unique t = None \/ tget n_category t <> Some (VStr c) -> unique_of c d l -> unique_of c ((i, t) :: d) l.
(** ** Definitions and their identifiers *)
(** Every identifier leads to a block of its own. *)
Record well_listed (d : ddic) : Prop := {
  wl_at : forall i b, In (i, b) (k_ids d) -> lower i = i /\ lower b = b /\ In b (map fst (k_blocks d));
  wl_ids : NoDup (map fst (k_ids d));
  wl_keys : NoDup (map snd (k_ids d));
  wl_blocks : NoDup (map fst (k_blocks d))
}.
(** The definition with an identifier. *)
Definition defines (d : ddic) (i : str) (e : entry) : Prop := exists b, In (i, b) (k_ids d) /\ In (b, e) (k_blocks d).
(** The attribute by which a definition is known: the category that it describes, or
    else its name, or else the key of the block. *)
Inductive known_as (cat_spec def_spec : str) : str * entry -> str -> Prop :=
| ka_cat k t ov i : tget cat_spec t = Some (VStr i) -> known_as cat_spec def_spec (k, (t, ov)) i
| ka_name k t ov i : tget cat_spec t = None -> tget def_spec t = Some (VStr i) -> known_as cat_spec def_spec (k, (t, ov)) i
| ka_key k t ov : tget cat_spec t = None -> tget def_spec t = None -> known_as cat_spec def_spec (k, (t, ov)) k.
(** What the definitions say about categories can be used: items that say something
    are in a category. *)
Definition telling (t : table) : Prop :=
  (tget n_mandatory t = Some (VStr (u "yes")) \/ tget n_unique t <> None -> exists c, tget n_category t = Some (VStr c))
  /\ (tget n_unique t = None \/ exists s, tget n_unique t = Some (VStr s)).
Definition told (old : option value) (l : list str) : option value := match l with [] => old | _ => Some (VList (map VStr l)) end.
(** The identifier of a definition in a DDL1 dictionary. *)
Inductive called : str * entry -> str -> Prop :=
| cl_cat k t ov c pre post : overview t -> tget n_name t = Some (VStr (c :: pre ++ 95%N :: post)) -> ~ In 95%N post -> called (k, (t, ov)) pre
| cl_name k t ov i : ~ overview t -> tget n_cat_id t = None -> tget n_name t = Some (VStr i) -> called (k, (t, ov)) i
| cl_key k t ov : ~ overview t -> tget n_cat_id t = None -> tget n_name t = None -> called (k, (t, ov)) k.
(** The definitions with their identifiers, without the one about the dictionary. *)
Fixpoint said_by (d : defs) (ids : list str) : list (str * table) :=
  match d, ids with
  | (k, (t, _)) :: d', i :: ids' => if str_eqb k n_this then said_by d' ids' else (lower i, t) :: said_by d' ids'
  | _, _ => []
  end.
Definition m_list : str := u "_category_mandatory.name".
Definition u_list : str := u "_category_key.name".
(** [t'] is [t] with what the definitions [L] say about the category [i] added. *)
Record informed (L : list (str * table)) (i : str) (t t' : table) : Prop := {
  in_other : forall a, ~ In (lower a) [m_list; u_list] -> tget a t' = tget a t;
  in_mand : forall l, needed i L l -> tget m_list t' = told (tget m_list t) l;
  in_uniq : forall l new, unique_of i L l -> missing [] l new -> tget u_list t' = told (tget u_list t) new
}.
(** The definition about the dictionary gets the types. *)
Definition c_code : str := u "_item_type_list.code".
Definition c_construct : str := u "_item_type_list.construct".
Definition c_prim : str := u "_item_type_list.primitive_code".
Definition base_types : list value := [VStr (u "char"); VStr (u "numb"); VStr (u "null")].
Definition numb_pattern : str := u "(-?(([0-9]*[.][0-9]+)|([0-9]+)[.]?)([(][0-9]+[)])?([eEdD][+-]?[0-9]+)?)|\?|\.".
Definition base_constructs : list value := [VStr (u ".*"); VStr numb_pattern; VStr [34; 34; 32]%N].
Record has_types (rows : list (str * str * value)) (t t' : table) : Prop := {
  ht_other : forall a, ~ In (lower a) [c_code; c_construct; c_prim] -> tget a t' = tget a t;
  ht_code : tget c_code t' = Some (VList (base_types ++ type_codes rows));
  ht_construct : tget c_construct t' = Some (VList (base_constructs ++ type_constructs rows));
  ht_prim : tget c_prim t' = Some (VList (base_types ++ type_prims rows))
}.
(** A DDL1 dictionary that can be loaded: [d1] are its definitions under their own
    names, [ids] their identifiers, [cats] the categories with a definition and [extra]
    those without. *)
Record loadable (d d1 : defs) (rows : list (str * str * value)) (ids cats extra : list str) : Prop := {
  lo_split : exists keep new, renamed d keep new /\ d1 = keep ++ new /\ NoDup (map fst d ++ map fst new);
  lo_lower : forall k, In k (map fst d) -> lower k = k;
  lo_usable : Forall (fun x : str * entry => usable (fst (snd x))) d1;
  lo_types : own_types d1 rows;
  lo_cats : exists o, overviews d1 o /\ missing [] o cats;
  lo_extra : exists used, categories d1 used /\ missing cats used extra;
  lo_plain : Forall (fun c => ~ In 32%N c /\ ~ In 9%N c /\ (length c <= 71)%nat) extra;
  lo_made : NoDup (map fst d1 ++ map made_name extra);
  lo_this : exists t ov, In (n_this, (t, ov)) d1 /\ ~ overview t /\ tget c_code t = None /\ tget c_construct t = None /\ tget c_prim t = None;
  lo_ids : Forall2 called d1 ids;
  lo_distinct : NoDup (map lower (ids ++ extra));
  lo_telling : Forall (fun x : str * entry => telling (fst (snd x))) d1;
  lo_case : forall k t ov c, In (k, (t, ov)) d1 -> tget n_category t = Some (VStr c) -> tget n_mandatory t = Some (VStr (u "yes")) \/ tget n_unique t <> None -> lower c = c;
  lo_unlocked : forall k t ov, In (k, (t, ov)) d1 -> (tget m_list t = None /\ tget u_list t = None) \/ ov = true
}.

(** ** DDL2 *)
(** A definition with no more than one name, and without other names. *)
Definition few_names (t : table) : Prop := forall l, tget m_name t = Some (VList l) \/ tget m_name t = Some (VSL l) -> (length l <= 1)%nat.
Inductive no_element : value -> Prop := ne_list : no_element (VList []) | ne_sl : no_element (VSL []) | ne_dict : no_element (VDict []).
