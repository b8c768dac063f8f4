(** castep_outputs/utilities/type_conv.py, byte parsers (189-384), and
    utility.get_only. *)
From Verif Require Import PyBase PyVal.
Local Open Scope list_scope.
Local Open Scope nat_scope.

Inductive btype := BComplex | BFloat | BBool | BInt | BStr.
(** The type argument: [t] or [(t, ...)]. *)
Inductive bspec := Scalar (t : btype) | Array (t : btype).

(** [struct.unpack(f">{len(val) // sz}c", val)]: consecutive items of [sz]
    bytes; struct.error unless the length is a multiple. *)
Fixpoint items {A} (n sz : nat) (dec : list ascii -> A) (b : list ascii) : list A :=
  match n with
  | O => []
  | S n' => dec (firstn sz b) :: items n' sz dec (skipn sz b)
  end.
Definition unpack {A} (sz : nat) (dec : list ascii -> A) (b : list ascii) : result (list A) :=
  if length b =? (length b / sz) * sz then Ok (items (length b / sz) sz dec b) else Err StructError.

(** Big-endian unsigned value, and the two's complement reading of 4 bytes. *)
Definition be_uint (b : list ascii) : Z := fold_left (fun acc c => acc * 256 + Z.of_N (ord c))%Z b 0%Z.
Definition be_int32 (b : list ascii) : Z :=
  let u := be_uint b in if (u <? 2 ^ 31)%Z then u else (u - 2 ^ 32)%Z.

(** type_conv.py 213, 240, 267 *)
Definition parse_float_bytes (b : list ascii) : result (list pyval) :=
  unpack 8 (fun x => VFloat (FBits x)) b.
Definition parse_int_bytes (b : list ascii) : result (list pyval) :=
  unpack 4 (fun x => VInt (be_int32 x)) b.
Definition parse_bool_bytes (b : list ascii) : result (list pyval) :=
  unpack 4 (fun x => VBool (negb (be_int32 x =? 0)%Z)) b.
(** type_conv.py 294-295: [map(complex, tmp[::2], tmp[1::2])] pairs up and
    stops with the shorter list. *)
Fixpoint pair_up (l : list (list ascii)) : list pyval :=
  match l with
  | a :: b :: l' => VComplex (FBits a) (FBits b) :: pair_up l'
  | _ => []
  end.
Definition parse_complex_bytes (b : list ascii) : result (list pyval) :=
  rmap pair_up (unpack 8 (fun x => x) b).
(** type_conv.py 317: [str(val, encoding="ascii")] *)
Definition parse_str_bytes (b : list ascii) : result (list pyval) :=
  if forallb (fun c => (ord c <? 128)%N) b then Ok [VStr b] else Err UnicodeDecodeError.

(** type_conv.py 327-333 ([_BYTE_PARSERS]) *)
Definition byte_parser (t : btype) : list ascii -> result (list pyval) :=
  match t with
  | BComplex => parse_complex_bytes
  | BFloat => parse_float_bytes
  | BBool => parse_bool_bytes
  | BInt => parse_int_bytes
  | BStr => parse_str_bytes
  end.

(** utility.py 624-628 *)
Definition get_only {A} (l : list A) : result A :=
  match l with [x] => Ok x | _ => Err ValueError end.

(** type_conv.py 374-384.  The TypeError branch (neither a type nor a
    (type, ...) pair) is excluded by [bspec]. *)
Definition parse_bytes (b : list ascii) (t : bspec) : result pyval :=
  match t with
  | Array t => rmap VTuple (byte_parser t b)
  | Scalar t => l <- byte_parser t b ;; get_only l
  end.
