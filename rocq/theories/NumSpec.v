(** Specification of numeric text, independent of the model: what a number
    token is, how it is written and which number it denotes. *)
From Coq Require Import Ascii String List ZArith QArith Qpower Bool.
Import ListNotations.
Open Scope list_scope.

Inductive digit := d0 | d1 | d2 | d3 | d4 | d5 | d6 | d7 | d8 | d9.

Definition digit_char (d : digit) : ascii :=
  match d with
  | d0 => "0" | d1 => "1" | d2 => "2" | d3 => "3" | d4 => "4"
  | d5 => "5" | d6 => "6" | d7 => "7" | d8 => "8" | d9 => "9"
  end%char.
Definition digit_value (d : digit) : Z :=
  match d with
  | d0 => 0 | d1 => 1 | d2 => 2 | d3 => 3 | d4 => 4
  | d5 => 5 | d6 => 6 | d7 => 7 | d8 => 8 | d9 => 9
  end%Z.

(** Positional value, most significant digit first. *)
Fixpoint decimal (ds : list digit) : Z :=
  match ds with
  | [] => 0
  | d :: ds' => digit_value d * 10 ^ Z.of_nat (length ds') + decimal ds'
  end%Z.
Definition write_digits (ds : list digit) : list ascii := map digit_char ds.

Inductive sign := NoSign | Plus | Minus.
Definition write_sign (s : sign) : list ascii :=
  match s with NoSign => [] | Plus => ["+"%char] | Minus => ["-"%char] end.
Definition apply_sign (s : sign) (z : Z) : Z := match s with Minus => - z | _ => z end%Z.

(** A number token: sign, integer digits, optionally a point with fraction
    digits, optionally an exponent. *)
Record num := {
  n_sign : sign;
  n_int : list digit;
  n_frac : option (list digit);
  n_exp : option (bool * sign * list digit)   (* true: written with 'E', false: 'e' *)
}.

Definition frac_digits (n : num) : list digit :=
  match n_frac n with Some f => f | None => [] end.

(** At least one digit in the mantissa; the exponent has 1 to 3 digits. *)
Definition num_ok (n : num) : Prop :=
  (n_int n ++ frac_digits n <> []) /\
  (n_frac n = None -> n_int n <> []) /\
  match n_exp n with
  | Some (_, _, e) => 1 <= length e <= 3
  | None => True
  end%nat.

Definition write_num (n : num) : list ascii :=
  write_sign (n_sign n) ++ write_digits (n_int n) ++
  match n_frac n with Some f => "."%char :: write_digits f | None => [] end ++
  match n_exp n with
  | Some (cap, s, e) => (if cap then "E"%char else "e"%char) :: write_sign s ++ write_digits e
  | None => []
  end.

Definition exp_value (n : num) : Z :=
  match n_exp n with Some (_, s, e) => apply_sign s (decimal e) | None => 0 end.

(** The rational number a token denotes. *)
Definition num_value (n : num) : Q :=
  inject_Z (apply_sign (n_sign n) (decimal (n_int n ++ frac_digits n)))
  * (10 # 1) ^ (exp_value n - Z.of_nat (length (frac_digits n))).

(** The same without a bound on the exponent digits. *)
Definition num_wf (n : num) : Prop :=
  (n_int n ++ frac_digits n <> []) /\
  (n_frac n = None -> n_int n <> []) /\
  match n_exp n with
  | Some (_, _, e) => e <> []
  | None => True
  end.

(** Numbers that do not overflow when rounded to a binary64 float. *)
Definition fits (q : Q) : Prop := - inject_Z (2 ^ 1024 - 2 ^ 970) < q < inject_Z (2 ^ 1024 - 2 ^ 970).

(** An integer literal is a token without point and exponent. *)
Definition is_int (n : num) : Prop := n_frac n = None /\ n_exp n = None.
Definition int_value (n : num) : Z := apply_sign (n_sign n) (decimal (n_int n)).

(** A ratio of integer literals. *)
Record ratio := { r_sign : sign; r_num : list digit; r_den : list digit }.
Definition ratio_ok (r : ratio) : Prop := r_num r <> [] /\ r_den r <> [].
Definition write_ratio (r : ratio) : list ascii :=
  write_sign (r_sign r) ++ write_digits (r_num r) ++ "/"%char :: write_digits (r_den r).
Definition ratio_value (r : ratio) : Q :=
  inject_Z (apply_sign (r_sign r) (decimal (r_num r))) / inject_Z (decimal (r_den r)).
