(** Specification of dictionaries of dictionaries by the paths that lead to their values. *)
From Coq Require Import List Arith.
From Verif Require Import PyVal SpecDict.
From Verif Require SpecEdges.
Import ListNotations.
Open Scope list_scope.

(** What is said about the values: a path of keys and the value at its end *)
Notation said := (list key * pyval)%type.
(** The first keys of the paths, and what is said under one of them *)
Definition heads (es : list said) : list key := flat_map (fun e => match fst e with k :: _ => [k] | [] => [] end) es.
Definition below (k : key) (es : list said) : list said :=
  flat_map (fun e => match fst e with k' :: p => if key_eqb k' k then [(p, snd e)] else [] | [] => [] end) es.
(** The values said of the empty path *)
Definition here (es : list said) : list pyval := flat_map (fun e => match fst e with [] => [snd e] | _ :: _ => [] end) es.
(** The dictionary: its keys are in the order in which they were said first; the value of
    a key is the last one said of it, or the dictionary of what is said under it.  No path
    is longer than [n + 1]. *)
Fixpoint tree (n : nat) (es : list said) : list (key * pyval) :=
  map (fun k => (k, match here (below k es) with
                    | [] => match n with 0 => VNone | S m => VDict false (tree m (below k es)) end
                    | v :: vs => last vs v
                    end))
      (SpecEdges.first_seen key_eqb (heads es)).
(** Nothing is said under a path that already has a value. *)
Definition orderly (es : list said) : Prop :=
  forall a p v b q w c, es = a ++ (p, v) :: b ++ (p ++ q, w) :: c -> q = [].
(** The paths are not empty and have at most [n + 1] keys. *)
Definition shallow (n : nat) (es : list said) : Prop := Forall (fun e => fst e <> [] /\ length (fst e) <= S n) es.
