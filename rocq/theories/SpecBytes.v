(** Specification of the big-endian encodings, independent of the model. *)
From Coq Require Import Ascii List ZArith.
Import ListNotations.
Open Scope list_scope.

(** Byte number [k] (0 = least significant) of an integer in two's complement. *)
Definition byte (k : Z) (z : Z) : ascii := ascii_of_N (Z.to_N ((z / 256 ^ k) mod 256)).
(** A 32-bit integer, most significant byte first. *)
Definition enc_int (z : Z) : list ascii := [byte 3 z; byte 2 z; byte 1 z; byte 0 z].
Definition int32 (z : Z) : Prop := (- 2 ^ 31 <= z < 2 ^ 31)%Z.
(** A Fortran logical. *)
Definition enc_bool (b : bool) : list ascii := enc_int (if b then 1 else 0)%Z.
(** The 8 bytes of a double. *)
Definition double (b : list ascii) : Prop := length b = 8.
(** 7-bit text. *)
Definition ascii_text (s : list ascii) : Prop := Forall (fun c => (N_of_ascii c < 128)%N) s.
