(** Specification of table rows: numbers in blank-separated columns. *)
From Coq Require Import Ascii String List.
From Verif Require Import NumSpec SpecLine SpecStr.
Import ListNotations.
Open Scope list_scope.

(** [columns ns t]: [t] is [g1 n1 g2 n2 ...], every gap a non-empty run of blanks. *)
Inductive columns : list num -> list ascii -> Prop :=
| cols_nil : columns [] []
| cols_cons g n ns t : blanks g -> g <> [] -> num_ok n -> columns ns t ->
    columns (n :: ns) (g ++ write_num n ++ t).

(** A token is over: nothing follows, or a blank does. *)
Definition token_end (s : list ascii) : Prop := forall c t, s = c :: t -> blank c.

(** Somewhere in [line] there are [k] columns in a row. *)
Definition has_columns (k : nat) (line : list ascii) : Prop :=
  exists a t b ns, line = a ++ t ++ b /\ columns ns t /\ length ns = k.

(** The line contains the text [w]. *)
Definition mentions (w : string) (line : list ascii) : Prop :=
  exists a b, line = a ++ list_ascii_of_string w ++ b.

(** [o] is [l] without surrounding blanks. *)
Definition trimmed (l o : list ascii) : Prop :=
  exists a b, l = a ++ o ++ b /\ blanks a /\ blanks b /\
    (forall c t, o = c :: t -> ~ blank c) /\ (forall t c, o = t ++ [c] -> ~ blank c).

(** ** .hug files: rows of four numbers; all other lines have no four columns *)
Record hug_row := { hr_compression : num; hr_temperature : num; hr_pressure : num; hr_energy : num }.
Definition hug_nums (r : hug_row) : list num := [hr_compression r; hr_temperature r; hr_pressure r; hr_energy r].
Inductive hug_lines : list (list ascii) -> list hug_row -> Prop :=
| hl_nil : hug_lines [] []
| hl_other l ls rows : ~ has_columns 4 l -> hug_lines ls rows -> hug_lines (l :: ls) rows
| hl_row r t s ls rows : columns (hug_nums r) t -> token_end s -> Forall (fun n => fits (num_value n)) (hug_nums r) ->
    hug_lines ls rows -> hug_lines ((t ++ s) :: ls) (r :: rows).

(** ** *_fmt files: rows of three integers (a grid point) and [k] numbers *)
Record grid_row := { g_x : num; g_y : num; g_z : num; g_vals : list num }.
Inductive grid_line (k : nat) (line : list ascii) (r : grid_row) : Prop :=
| gl : cut nonblank (map write_num (g_x r :: g_y r :: g_z r :: g_vals r)) line ->
    Forall (fun n => is_int n /\ num_wf n) [g_x r; g_y r; g_z r] ->
    Forall (fun n => num_wf n /\ fits (num_value n)) (g_vals r) -> length (g_vals r) = k ->
    grid_line k line r.
Inductive grid_lines (k : nat) : list (list ascii) -> list grid_row -> Prop :=
| gls_nil : grid_lines k [] []
| gls_blank l ls rows : blanks l -> grid_lines k ls rows -> grid_lines k (l :: ls) rows
| gls_row l r ls rows : grid_line k l r -> grid_lines k ls rows -> grid_lines k (l :: ls) (r :: rows).
(** Column [j] of a list of rows. *)
Definition nth_column {A} (j : nat) (rows : list (list A)) : list A :=
  flat_map (fun r => match nth_error r j with Some v => [v] | None => [] end) rows.
