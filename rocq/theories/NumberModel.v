(** Model of reading numbers: get_number_with_esd (src/CifFile_module.nw 4100-4122)
    and float_with_esd (3409-3413).

    Simplification: python's floats are exact rationals here.  Not modelled:
    rounding, overflow (float("1e999") is infinity, 10 ** 400.0 raises
    OverflowError), and the texts only [float] knows (inf, nan, digits separated
    by underscores, surrounding blanks), which [py_float] refuses. *)
From Coq Require Import String Ascii List NArith ZArith QArith Bool.
From Verif Require Import PyBase RegexModel.
Import ListNotations.

Definition is_digit (c : N) : bool := ((48 <=? c) && (c <=? 57))%N.
Definition digit : re := RChr is_digit.
Definition digits : re := rplus digit.

(** The groups of the regular expression that the code uses: base_num, dad, esd,
    exp; or one of the groups q and dot. *)
Inductive num_groups :=
| GNum (base : str) (dad esd exp : option str)
| GNone.

(** A group followed by a question mark: tried first, then skipped. *)
Definition opt_group (r : re) (s : str) : list (option str * str) :=
  map (fun cr => (Some (fst cr), snd cr)) (rmatch r s) ++ [(None, s)].
(** ([0-9]*[.]([0-9]+))|([0-9]+)[.]? with the digits after the point (4102). *)
Definition unsigned (s : str) : list (str * option str * str) :=
  flat_map (fun a => map (fun d => (fst a ++ fst d, Some (fst d), snd d)) (rmatch digits (snd a)))
    (rmatch (RSeq (RStar digit) (is 46)) s)
  ++ map (fun cr => (fst cr, None, snd cr)) (rmatch (RSeq digits (ropt (is 46))) s).
(** [(][0-9]+[)] and [eEdD][+-]?[0-9]+ (4102). *)
Definition esd_re : re := RSeq (is 40) (RSeq digits (is 41)).
Definition exp_re : re := RSeq (one_of [101; 69; 100; 68]%N) (RSeq (ropt (one_of [43; 45]%N)) digits).
(** All matches of the whole expression (4102) in python's order. *)
Definition numb_matches (s : str) : list num_groups :=
  flat_map (fun sg => flat_map (fun un => flat_map (fun e => map (fun x =>
      GNum (fst sg ++ fst (fst un)) (snd (fst un)) (fst e) (fst x))
    (opt_group exp_re (snd e))) (opt_group esd_re (snd un))) (unsigned (snd sg)))
    (rmatch (ropt (is 45)) s)
  ++ map (fun _ => GNone) (rmatch (is 63) s)
  ++ map (fun _ => GNone) (rmatch (is 46) s).
(** re.match(numb_re,numstring) (4103) *)
Definition numb_match (s : str) : option num_groups := hd_error (numb_matches s).

(** Reading digits from the left. *)
Definition read_digits (s : str) : Z := fold_left (fun a c => (10 * a + (Z.of_N c - 48))%Z) s 0%Z.
Fixpoint span_digits (s : str) : str * str :=
  match s with
  | c :: s' => if is_digit c then (let (a, b) := span_digits s' in (c :: a, b)) else ([], s)
  | [] => ([], [])
  end.
Definition ten (e : Z) : Q := Qpower (10 # 1) e.
Definition signed (neg : bool) (z : Z) : Z := if neg then (- z)%Z else z.
Definition take_sign (s : str) : bool * str :=
  match s with
  | c :: s' => if (c =? 45)%N then (true, s') else if (c =? 43)%N then (false, s') else (false, s)
  | [] => (false, s)
  end.
(** float(x) for a text with a sign and digits only: the exponent (4120). *)
Definition int_text (s : str) : outcome Z :=
  let (neg, r) := take_sign s in
  match span_digits r with
  | ([], _) => Raise ValueErr
  | (ds, []) => Ret (signed neg (read_digits ds))
  | _ => Raise ValueErr
  end.
(** float(text), decimal literals. *)
Definition float_tail (neg : bool) (ds : str) (scale : Z) (s : str) : outcome Q :=
  match ds with
  | [] => Raise ValueErr
  | _ =>
      let m := inject_Z (signed neg (read_digits ds)) in
      match s with
      | [] => Ret (m * ten scale)%Q
      | c :: s' =>
          if ((c =? 101) || (c =? 69))%N then
            obind (int_text s') (fun x => Ret (m * ten (scale + x))%Q)
          else Raise ValueErr
      end
  end.
Definition py_float (s : str) : outcome Q :=
  let (neg, r) := take_sign s in
  let (ip, r1) := span_digits r in
  match r1 with
  | c :: r2 =>
      if (c =? 46)%N then
        let (fp, r3) := span_digits r2 in
        float_tail neg (ip ++ fp) (- Z.of_nat (length fp)) r3
      else float_tail neg ip 0 r1
  | [] => float_tail neg ip 0 r1
  end.

(** exp.replace("d","e").replace("D","e") (4111-4112) *)
Definition mend_exp (s : str) : str := map (fun c => if ((c =? 100) || (c =? 68))%N then 101%N else c) s.
(** esd[1:-1] *)
Definition inner (s : str) : str := removelast (tl s).

(** 4100-4122: the number and its s.u.; [None] for None. *)
Definition get_number (s : str) : outcome (option Q * option Q) :=
  match numb_match s with
  | None | Some GNone => Ret (None, None)
  | Some (GNum base dad esd exp) =>
      let exp' := option_map mend_exp exp in
      obind (py_float (base ++ match exp' with Some x => x | None => [] end)) (fun v =>
      match esd with
      | None => Ret (Some v, None)
      | Some e =>
          obind (py_float (inner e)) (fun e0 =>
          let e1 := match dad with Some d => (e0 * ten (-1 * Z.of_nat (length d)))%Q | None => e0 end in
          match exp' with
          | None => Ret (Some v, Some e1)
          | Some x => obind (int_text (tl x)) (fun k => Ret (Some v, Some (e1 * ten k)%Q))
          end)
      end)
  end.

(** inval[:inval.find("(")], all of it if there is none. *)
Fixpoint before_bracket (s : str) : str :=
  match s with [] => [] | c :: s' => if (c =? 40)%N then [] else c :: before_bracket s' end.
(** 3409-3413, for a text. *)
Definition float_with_esd (s : str) : outcome Q := py_float (before_bracket s).
