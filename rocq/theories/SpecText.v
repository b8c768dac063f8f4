(** Specification of text files as sequences of lines, and of the cursors that
    the line readers are compared with.  Independent of the model. *)
From Coq Require Import Ascii String List Arith Bool ZArith.
Import ListNotations.
Open Scope list_scope.

Definition LF : ascii := ascii_of_nat 10.

(** [ls] is the text cut after every newline: nothing lost, no empty piece,
    every piece ends with its only newline, except possibly the last one which
    may have none. *)
Definition is_line (l : list ascii) : Prop := exists w, l = w ++ [LF] /\ ~ In LF w.
Definition is_last_line (l : list ascii) : Prop := is_line l \/ (l <> [] /\ ~ In LF l).
Inductive lines_of : list (list ascii) -> list ascii -> Prop :=
| lines_none : lines_of [] []
| lines_last l : l <> [] -> ~ In LF l -> lines_of [l] l
| lines_more l ls t : is_line l -> lines_of ls t -> lines_of (l :: ls) (l ++ t).

(** Operations of a client. *)
Inductive op := Next | Rewind.

(** What a call returned. *)
Inductive outcome := Line (l : list ascii) | Stop | Done | Refused.

(** A cursor over lines where a rewind undoes at most the latest next, when
    that was successful. *)
Record cursor := { c_idx : nat; c_undo : bool }.
Definition cursor_step (ls : list (list ascii)) (o : op) (c : cursor) : outcome * cursor :=
  match o with
  | Next => match nth_error ls (c_idx c) with
            | Some l => (Line l, {| c_idx := S (c_idx c); c_undo := true |})
            | None => (Stop, {| c_idx := c_idx c; c_undo := false |})
            end
  | Rewind => if c_undo c then (Done, {| c_idx := c_idx c - 1; c_undo := false |}) else (Done, c)
  end.

Definition cursor0 : cursor := {| c_idx := 0; c_undo := false |}.

(** A cursor that may be rewound any number of times: [z] calls of next minus
    rewinds so far; each failed next also counts. *)
Definition icursor_step (ls : list (list ascii)) (o : op) (i : nat) : outcome * nat :=
  match o with
  | Next => (match nth_error ls i with Some l => Line l | None => Stop end, S i)
  | Rewind => match i with O => (Refused, O) | S i' => (Done, i') end
  end.

(** Running a history on any machine: outcomes, final state. *)
Fixpoint run {S} (step : op -> S -> outcome * S) (ops : list op) (s : S) : list outcome * S :=
  match ops with
  | [] => ([], s)
  | o :: ops' => let (r, s1) := step o s in
                 let (rs, s2) := run step ops' s1 in (r :: rs, s2)
  end.

(** Number of elements satisfying a predicate. *)
Definition count {A} (p : A -> bool) (l : list A) : nat := length (filter p l).

(** How often end of input was reported in a history. *)
Definition stops (outs : list outcome) : nat :=
  count (fun o => match o with Stop => true | _ => false end) outs.
