(** Specification of Fortran unformatted files and of a reader over their records. *)
From Coq Require Import Ascii List ZArith.
From Verif Require Import SpecBytes.
Import ListNotations.
Open Scope list_scope.
Local Open Scope nat_scope.

Definition bytes := list ascii.
(** A record is written as its length, its payload, and its length again. *)
Definition enc_record (r : bytes) : bytes :=
  enc_int (Z.of_nat (length r)) ++ r ++ enc_int (Z.of_nat (length r)).
Definition enc_file (rs : list bytes) : bytes := concat (map enc_record rs).
Definition short (r : bytes) : Prop := (Z.of_nat (length r) < 2 ^ 32)%Z.

(** A reader is a cursor among the records (the number of records before it), or
    is exhausted after skipping past the end. *)
Inductive cursor := At (i : nat) | Exhausted.
Inductive op := Next | Skip (n : Z) | Rewind (n : Z).
Inductive outcome := Data (r : bytes) | Stop | Moved.

(** Moving by [n] records; [None] where the reader's behaviour is not described:
    moving back beyond the start, or moving back once exhausted. *)
Definition move (rs : list bytes) (c : cursor) (n : Z) : option (outcome * cursor) :=
  match c with
  | At i => let t := (Z.of_nat i + n)%Z in
            if (t <? 0)%Z then None
            else if (t <=? Z.of_nat (length rs))%Z then Some (Moved, At (Z.to_nat t))
            else Some (Moved, Exhausted)
  | Exhausted => if (n <? 0)%Z then None else Some (Moved, Exhausted)
  end.
Definition cursor_step (rs : list bytes) (c : cursor) (o : op) : option (outcome * cursor) :=
  match o with
  | Next => match c with
            | At i => match nth_error rs i with
                      | Some r => Some (Data r, At (S i))
                      | None => Some (Stop, At i)
                      end
            | Exhausted => Some (Stop, Exhausted)
            end
  | Skip n => move rs c n
  | Rewind n => move rs c (- n)
  end.
Fixpoint cursor_run (rs : list bytes) (c : cursor) (os : list op) : option (list outcome) :=
  match os with
  | [] => Some []
  | o :: os' => match cursor_step rs c o with
                | None => None
                | Some (x, c') => match cursor_run rs c' os' with
                                  | None => None
                                  | Some xs => Some (x :: xs)
                                  end
                end
  end.
