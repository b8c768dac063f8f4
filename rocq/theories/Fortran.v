(** castep_outputs/bin_parsers/fortran_bin_parser.py. *)
From Verif Require Import PyBase PyVal Bytes.
Local Open Scope list_scope.
Local Open Scope nat_scope.

(** An open binary file: contents and position (which may lie beyond the end). *)
Record bfile := { bf_bytes : list ascii; bf_pos : nat }.

(** [file.read(n)] *)
Definition bread (f : bfile) (n : nat) : list ascii * bfile :=
  let d := firstn n (skipn (bf_pos f) (bf_bytes f)) in
  (d, {| bf_bytes := bf_bytes f; bf_pos := bf_pos f + length d |}).
(** [file.seek(z, SEEK_CUR)]: a file on disk refuses a negative target (BytesIO
    would go to 0 instead). *)
Definition bseek (f : bfile) (z : Z) : result bfile :=
  let t := (Z.of_nat (bf_pos f) + z)%Z in
  if (t <? 0)%Z then Err OSError else Ok {| bf_bytes := bf_bytes f; bf_pos := Z.to_nat t |}.
(** [int.from_bytes(b, "big")] as a length *)
Definition be_size (b : list ascii) : nat := Z.to_nat (be_uint b).

(** 50-59 *)
Definition rnext (f : bfile) : result (list ascii * bfile) :=
  let (bs, f) := bread f 4 in
  match bs with
  | [] => Err StopIteration
  | _ => let (data, f) := bread f (be_size bs) in
         let (_, f) := bread f 4 in
         Ok (data, f)
  end.

(** 84-87, repeated [k] times *)
Fixpoint rewind_loop (k : nat) (f : bfile) : result bfile :=
  match k with
  | O => Ok f
  | S k' => let (b, f) := bread f 4 in
            f <- bseek f (- Z.of_nat (be_size b) - 12) ;; rewind_loop k' f
  end.
(** 93-95, repeated [k] times *)
Fixpoint skip_loop (k : nat) (f : bfile) : result bfile :=
  match k with
  | O => Ok f
  | S k' => let (b, f) := bread f 4 in
            f <- bseek f (Z.of_nat (be_size b) + 4) ;; skip_loop k' f
  end.
(** 79-95 *)
Definition rskip (n : Z) (f : bfile) : result bfile :=
  if (n =? 0)%Z then Ok f
  else if (n <? 0)%Z then
    f <- bseek f (-4) ;;
    f <- rewind_loop (Z.to_nat (Z.abs n) - 1) f ;;
    let (b, f) := bread f 4 in
    bseek f (- Z.of_nat (be_size b) - 8)
  else skip_loop (Z.to_nat n) f.
(** 69 *)
Definition rrewind (n : Z) (f : bfile) : result bfile := rskip (- n) f.

(** 114 *)
Definition rget (t : bspec) (f : bfile) : result (pyval * bfile) :=
  x <- rnext f ;; let (d, f) := x in v <- parse_bytes d t ;; Ok (v, f).

(** A StopIteration escaping inside a generator becomes a RuntimeError. *)
Definition in_generator {A} (r : result A) : result A :=
  match r with Err StopIteration => Err RuntimeError | _ => r end.
(** [tuple(self.get_dtype_iter(dtypes))], 193-194 *)
Fixpoint get_dtype_iter (ts : list bspec) (f : bfile) : result (list pyval * bfile) :=
  match ts with
  | [] => Ok ([], f)
  | t :: ts' => x <- in_generator (rget t f) ;; let (v, f) := x in
                y <- get_dtype_iter ts' f ;; let (vs, f) := y in Ok (v :: vs, f)
  end.
(** 218-221; [zip] asks the dtypes first, so no record is consumed when they run out. *)
Fixpoint get_dtype_dict (ts : list (str * bspec)) (f : bfile) : result (list (str * pyval) * bfile) :=
  match ts with
  | [] => Ok ([], f)
  | (k, t) :: ts' =>
      match rnext f with
      | Err StopIteration => Ok ([], f)
      | Err e => Err e
      | Ok (d, f) => v <- parse_bytes d t ;;
                     y <- get_dtype_dict ts' f ;; let (vs, f) := y in Ok ((k, v) :: vs, f)
      end
  end.
(** 162-169 with [n] given, run to its end: the yielded values. *)
Fixpoint cycle {A} (read : bfile -> result (A * bfile)) (n : nat) (f : bfile) : result (list A * bfile) :=
  match n with
  | O => Ok ([], f)
  | S n' => x <- read f ;; let (v, f) := x in
            y <- cycle read n' f ;; let (vs, f) := y in Ok (v :: vs, f)
  end.
Definition cycle_iter (ts : list bspec) := cycle (get_dtype_iter ts).
Definition cycle_dict (ts : list (str * bspec)) := cycle (get_dtype_dict ts).

(** [for datum in reader]: every record to the end.  Each step consumes at least
    a byte, so the file length is enough fuel. *)
Fixpoint records_loop (fuel : nat) (f : bfile) : result (list (list ascii)) :=
  match fuel with
  | O => Err OutOfFuel
  | S n => match rnext f with
           | Err StopIteration => Ok []
           | Err e => Err e
           | Ok (d, f) => ds <- records_loop n f ;; Ok (d :: ds)
           end
  end.
Definition records (f : bfile) : result (list (list ascii)) := records_loop (S (length (bf_bytes f))) f.
Definition open_bytes (b : list ascii) : bfile := {| bf_bytes := b; bf_pos := 0 |}.
