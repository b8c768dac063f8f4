(** Specification of .phonon files. *)
From Coq Require Import Ascii String List NArith ZArith QArith.
From Verif Require Import PyBase PyVal NumSpec SpecLine SpecStr SpecTable SpecBands SpecDict SpecMd SpecCastep SpecFiles SpecFiles2 SpecFiles3 SpecFiles5.
Import ListNotations.
Open Scope list_scope.

(** [t] is what the line has in the columns from [a] up to, but not including, [b]. *)
Inductive in_columns (a b : nat) : list ascii -> list ascii -> Prop :=
| ic_whole x t y : length x = a -> length t = (b - a)%nat -> in_columns a b (x ++ t ++ y) t
| ic_short x t : length x = a -> (length t < b - a)%nat -> in_columns a b (x ++ t) t
| ic_none l : (length l < a)%nat -> in_columns a b l [].
(** A field of a number, or an empty one *)
Inductive field : list ascii -> option num -> Prop :=
| fd_none t : blanks t -> field t None
| fd_some g n g' : blanks g -> blanks g' -> num_wf n -> fits (num_value n) -> field (g ++ write_num n ++ g') (Some n).
Record mode := { md_value : num; md_ir : option num; md_raman : option num }.
Inductive mode_row (l : list ascii) (m : mode) : Prop :=
| mr t1 t2 t3 : in_columns 8 23 l t1 -> field t1 (Some (md_value m)) -> in_columns 31 46 l t2 -> field t2 (md_ir m) ->
    in_columns 55 70 l t3 -> field t3 (md_raman m) -> mode_row l m.
Record qpoint := { q_at : list num; q_weight : num; q_dir : list num; q_modes : list mode; q_vectors : list (list (num * num)) }.
Inductive qpoint_title (q : qpoint) : list ascii -> Prop :=
| qt w1 w2 l : cut nonblank (w1 :: w2 :: map write_num (q_at q ++ q_weight q :: q_dir q)) l -> length (q_at q) = 3%nat ->
    numbers_ok (q_at q ++ q_weight q :: q_dir q) -> qpoint_title q l.
Inductive vector_words : list ascii -> list (num * num) -> Prop :=
| vw w1 w2 ps l : cut nonblank (w1 :: w2 :: map write_num (pair_nums ps)) l -> numbers_ok (pair_nums ps) -> vector_words l ps.
(** A count in four columns *)
Definition in_four (z : Z) : list ascii := repeat " "%char (4 - length (str_of_Z z)) ++ str_of_Z z.
(** [w] is somewhere in the line. *)
Definition has_text (w line : list ascii) : Prop := exists a b, line = a ++ w ++ b.
Definition no_block (l : list ascii) : Prop := ~ mentions "BEGIN header" l /\ ~ mentions "q-pt" l /\ ~ mentions "Mode Ion" l.
(** The q-points of a file with [b] branches and [i] ions: frequencies up to the
    title of the vectors, then vectors up to those of the last branch and ion. *)
Inductive qpoints (b i : Z) : list (list ascii) -> list qpoint -> Prop :=
| qp_nil : qpoints b i [] []
| qp_other l ls qs : no_block l -> qpoints b i ls qs -> qpoints b i (l :: ls) qs
| qp_block l body l' gap m vs last ls q qs : ~ mentions "BEGIN header" l -> delimited "q-pt" "Phonon Eigenvectors" l body l' -> qpoint_title q l ->
    Z.of_nat (length body) = b -> Forall2 mode_row body (q_modes q) -> Forall no_block gap ->
    ~ mentions "BEGIN header" m -> ~ mentions "q-pt" m -> mentions "Mode Ion" m ->
    Forall (fun x => ~ has_text (in_four b ++ in_four i) x) vs -> has_text (in_four b ++ in_four i) last ->
    Z.of_nat (length (vs ++ [last])) = (b * i)%Z -> Forall2 vector_words (vs ++ [last]) (q_vectors q) ->
    qpoints b i ls qs -> qpoints b i (l :: body ++ l' :: gap ++ m :: vs ++ last :: ls) (q :: qs).
Inductive phonon_file (its : list hitem) (b i : Z) (qs : list qpoint) : list (list ascii) -> Prop :=
| pf hd ls : header_block "" its hd -> qpoints b i ls qs -> phonon_file its b i qs (hd ++ ls).
(** [v] is said last under the name [k]. *)
Definition said_last (es : list (key * pyval)) (k : string) (v : pyval) : Prop :=
  exists es1 es2, es = es1 ++ named k v :: es2 /\ absent es2 (KStr (text_of k)).
Definition optional (k : string) (o : option num) : list (key * pyval) := match o with Some n => [named k (float_of n)] | None => [] end.
Definition mode_entries (m : mode) : list (key * pyval) :=
  named "eigenvalues" (float_of (md_value m)) :: optional "ir_intensity" (md_ir m) ++ optional "raman_intensity" (md_raman m).
Definition qpoint_said (q : qpoint) (v : pyval) : Prop :=
  exists d, v = VDict true d /\
    gathered (named "qpt" (floats (q_at q)) :: named "weight" (float_of (q_weight q)) :: match q_dir q with [] => [] | ns => [named "dir" (floats ns)] end)
      (flat_map mode_entries (q_modes q) ++ map (fun ps => named "eigenvectors" (VTuple (map complex_val ps))) (q_vectors q)) d.
