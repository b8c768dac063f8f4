(** Specification of the lines that open and close blocks, and of lists without
    repetitions; independent of the parser. *)
From Coq Require Import Ascii String List Arith Bool.
From Verif Require Import NumSpec SpecStr SpecLine SpecTable SpecBands SpecMd.
Import ListNotations.
Open Scope list_scope.

(** The different items of a list, in the order in which they appear first *)
Definition first_seen {A} (same : A -> A -> bool) (l : list A) : list A :=
  fold_left (fun seen x => if existsb (same x) seen then seen else seen ++ [x]) l [].

(** ** Lines that open and close blocks *)
Definition heading (t : string) (l : list ascii) : Prop := exists a b, blanks a /\ blanks b /\ l = a ++ text_of t ++ b.
Definition framed (c : ascii) (t : string) (l : list ascii) : Prop :=
  exists a g g' b, blanks a /\ blanks g /\ blanks g' /\ blanks b /\ l = a ++ c :: g ++ text_of t ++ g' ++ c :: b.
Definition ruled (c : ascii) (l : list ascii) : Prop := exists a n b, blanks a /\ blanks b /\ l = a ++ repeat c (S n) ++ b.
(** The lines after the first, up to the [n]-th that closes *)
Inductive delimited (close : list ascii -> Prop) : nat -> list (list ascii) -> Prop :=
| dl_end l : close l -> delimited close 1 [l]
| dl_close l n ls : close l -> delimited close n ls -> delimited close (S n) (l :: ls)
| dl_in l n ls : ~ close l -> delimited close n ls -> delimited close n (l :: ls).
