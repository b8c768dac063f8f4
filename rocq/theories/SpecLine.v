(** Specification of a line of text containing numbers, independent of the model. *)
From Coq Require Import Ascii String List NArith ZArith QArith.
From Verif Require Import NumSpec.
Import ListNotations.
Open Scope list_scope.

Definition among (cs : string) (c : ascii) : Prop := In c (list_ascii_of_string cs).
Definition free_of (cs : string) (s : list ascii) : Prop := forall c, In c s -> ~ among cs c.
Definition not_first (cs : string) (s : list ascii) : Prop := forall c t, s = c :: t -> ~ among cs c.
Definition not_last (cs : string) (s : list ascii) : Prop := forall t c, s = t ++ [c] -> ~ among cs c.

(** What follows a number on a line: [tail ns t] means [t] contains exactly the
    numbers [ns], kept apart by digit-free gaps that do not touch a number with
    a point, sign or exponent letter.  A gap may be empty before a signed number
    (Fortran columns that ran together). *)
Inductive tail : list num -> list ascii -> Prop :=
| tail_end s : free_of "0123456789" s -> not_first ".eE" s -> tail [] s
| tail_more s n ns t :
    free_of "0123456789" s -> not_first ".eE" s -> not_last "+-." s ->
    (s <> [] \/ n_sign n <> NoSign) -> num_ok n -> tail ns t ->
    tail (n :: ns) (s ++ write_num n ++ t).

Inductive number_line : list num -> list ascii -> Prop :=
| line_none s : free_of "0123456789" s -> number_line [] s
| line_some s n ns t :
    free_of "0123456789" s -> not_last "+-." s -> num_ok n -> tail ns t ->
    number_line (n :: ns) (s ++ write_num n ++ t).

(** [parts] cut a line into gaps and numbers. *)
Definition occurs_in_order (parts : list (list ascii * num)) (line : list ascii) : Prop :=
  exists rest, line = concat (map (fun x => fst x ++ write_num (snd x)) parts) ++ rest.

(** Blanks: TAB, LF, VT, FF, CR, FS, GS, RS, US and space. *)
Definition blank (c : ascii) : Prop :=
  In (N_of_ascii c) [9; 10; 11; 12; 13; 28; 29; 30; 31; 32]%N.
Definition blanks (s : list ascii) : Prop := Forall blank s.

(** Decimal writing of an integer: no plus sign, no superfluous zeros. *)
Definition canonical_int (n : num) : Prop :=
  is_int n /\ num_wf n /\ n_sign n <> Plus /\ (n_sign n = Minus -> int_value n <> 0%Z) /\
  (n_int n = [d0] \/ forall t, n_int n <> d0 :: t).

(** Numeric text: a token or a ratio, surrounded by blanks. *)
Inductive denotes : list ascii -> QArith_base.Q -> Prop :=
| den_num a n b : blanks a -> blanks b -> num_wf n -> denotes (a ++ write_num n ++ b) (num_value n)
| den_ratio a r b : blanks a -> blanks b -> ratio_ok r -> decimal (r_den r) <> 0%Z ->
    denotes (a ++ write_ratio r ++ b) (ratio_value r).

(** [z] is [q] without its fractional part. *)
Definition truncates (q : QArith_base.Q) (z : Z) : Prop :=
  (0 <= q -> inject_Z z <= q /\ q < inject_Z (z + 1))%Q /\
  (q <= 0 -> inject_Z (z - 1) < q /\ q <= inject_Z z)%Q.
