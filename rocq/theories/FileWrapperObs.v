(** Observing the line readers of [FileWrapper.v] as the machines of
    [SpecText.v]: which calls a client makes and what it sees. *)
From Verif Require Import PyBase SpecText FileWrapper.
Local Open Scope list_scope.

(** A call's result as an outcome. *)
Definition to_outcome {A} (f : A -> outcome) (r : result A) : outcome :=
  match r with Ok a => f a | Err StopIteration => Stop | Err _ => Refused end.

Definition fw_step (o : op) (f : fwrap) : outcome * fwrap :=
  match o with
  | Next => let (r, f') := fw_next f in (to_outcome Line r, f')
  | Rewind => let (r, f') := fw_rewind f in (to_outcome (fun _ => Done) r, f')
  end.

Definition b_step (o : op) (b : block) : outcome * block :=
  match o with
  | Next => let (r, b') := b_next b in (to_outcome Line r, b')
  | Rewind => let (r, b') := b_rewind b in (to_outcome (fun _ => Done) r, b')
  end.

(** The source after [k] calls of next, and the outcome of the call after that. *)
Fixpoint src_skip (k : nat) (s : source) : source :=
  match k with O => s | S k' => src_skip k' (snd (src_next s)) end.
Definition src_out (k : nat) (s : source) : result str := fst (src_next (src_skip k s)).

(** Reading from [s] gives exactly the lines [ls], then StopIteration for ever. *)
Definition delivers (s : source) (ls : list str) : Prop :=
  forall k, src_out k s = match nth_error ls k with Some l => Ok l | None => Err StopIteration end.

(** Sources a client can get hold of. *)
Inductive reachable : source -> Prop :=
| R_file text : reachable (SFile (fw_open text))
| R_block parent data : reachable (SBlock (new_block parent data))
| R_bounds fore back b : reachable (SBlock b) -> reachable (SBlock (b_remove_bounds fore back b))
| R_next s : reachable s -> reachable (snd (src_next s))
| R_rewind s : reachable s -> reachable (snd (src_rewind s)).

(** The lines of the block returned, if any. *)
Definition data_of (r : result block) : result (list str) := rmap b_data r.

(** The block after [k] calls of next. *)
Definition nexts (k : nat) (b : block) : block := snd (run b_step (repeat Next k) b).
