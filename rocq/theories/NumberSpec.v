(** What a CIF numeral is and which number it stands for; nothing of the model
    is used. *)
From Coq Require Import List NArith ZArith QArith Bool.
Import ListNotations.

(** Digits are numbers below ten; exponents have a letter and perhaps a sign. *)
Record numeral := mkNum {
  n_neg : bool;
  n_int : list N;
  n_frac : option (list N);       (* [Some []] is a final decimal point *)
  n_su : option (list N);
  n_exp : option (N * option bool * list N)   (* letter; [Some true] is minus; digits *)
}.
Definition all_digits (ds : list N) : Prop := Forall (fun d => (d < 10)%N) ds.
Record proper (n : numeral) : Prop := {
  p_int : all_digits (n_int n);
  p_frac : forall f, n_frac n = Some f -> all_digits f;
  p_some : n_int n <> [] \/ exists f, n_frac n = Some f /\ f <> [];
  p_su : forall e, n_su n = Some e -> all_digits e /\ e <> [];
  p_exp : forall l g x, n_exp n = Some (l, g, x) -> In l [101; 69; 100; 68]%N /\ all_digits x /\ x <> []
}.

(** How a numeral is written. *)
Definition dtext (ds : list N) : list N := map (fun d => (48 + d)%N) ds.
Definition base_text (n : numeral) : list N :=
  (if n_neg n then [45%N] else []) ++ dtext (n_int n)
  ++ match n_frac n with Some f => 46%N :: dtext f | None => [] end.
Definition su_text (n : numeral) : list N :=
  match n_su n with Some e => 40%N :: dtext e ++ [41%N] | None => [] end.
Definition exp_text (n : numeral) : list N :=
  match n_exp n with
  | Some (l, g, x) => l :: match g with Some true => [45%N] | Some false => [43%N] | None => [] end ++ dtext x
  | None => []
  end.
Definition text (n : numeral) : list N := base_text n ++ su_text n ++ exp_text n.

(** The number written by digits: each digit times the power of ten of its place. *)
Fixpoint whole (ds : list N) : Z :=
  match ds with [] => 0%Z | d :: r => (Z.of_N d * 10 ^ Z.of_nat (length r) + whole r)%Z end.
Definition exponent (n : numeral) : Z :=
  match n_exp n with
  | Some (_, Some true, x) => (- whole x)%Z
  | Some (_, _, x) => whole x
  | None => 0%Z
  end.
Definition frac_digits (n : numeral) : list N := match n_frac n with Some f => f | None => [] end.
Definition power (k : Z) : Q := Qpower (10 # 1) k.
(** The value: (int + frac / 10^places) * 10^exponent, with the sign. *)
Definition magnitude (n : numeral) : Q :=
  ((inject_Z (whole (n_int n)) + inject_Z (whole (frac_digits n)) * power (- Z.of_nat (length (frac_digits n))))
   * power (exponent n))%Q.
Definition number (n : numeral) : Q := (if n_neg n then - magnitude n else magnitude n)%Q.
(** The s.u. is in units of the last place. *)
Definition uncertainty (n : numeral) : option Q :=
  option_map (fun e => (inject_Z (whole e) * power (- Z.of_nat (length (frac_digits n))) * power (exponent n))%Q) (n_su n).

(** Equality of optional numbers. *)
Definition same (a b : option Q) : Prop :=
  match a, b with Some x, Some y => (x == y)%Q | None, None => True | _, _ => False end.

(** A text that does not begin with a numeral. *)
Definition no_numeral (s : list N) : Prop := forall n rest, proper n -> s = text n ++ rest -> False.
(** [n] is the longest numeral [s] begins with. *)
Definition longest (n : numeral) (s : list N) : Prop :=
  proper n /\ (exists rest, s = text n ++ rest)
  /\ forall n' rest', proper n' -> s = text n' ++ rest' -> (length (text n') <= length (text n))%nat.
