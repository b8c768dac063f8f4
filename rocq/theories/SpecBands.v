(** Specification of .bands files. *)
From Coq Require Import Ascii String List NArith ZArith QArith.
From Verif Require Import NumSpec SpecLine SpecStr SpecTable.
Import ListNotations.
Open Scope list_scope.

Definition text_of := list_ascii_of_string.
Definition begins (w : string) (l : list ascii) : Prop := exists r, l = text_of w ++ r.

(** ** Header lines: "Number of <words> <number>", lines with the text [extra]
    and numbers, the three cell vectors, and others. *)
Definition counting (l : list ascii) : Prop := exists a r, l = a ++ text_of "Number of" ++ r /\ blanks a.
Inductive hval := HCount (z : Z) | HNums (ns : list num).
Inductive head_line (extra : string) : list ascii -> option (list ascii * hval) -> Prop :=
| hd_count l w1 w2 ks n z : counting l -> cut nonblank (w1 :: w2 :: ks ++ [write_num n]) l ->
    num_wf n -> fits (num_value n) -> truncates (num_value n) z ->
    head_line extra l (Some (joined (text_of " ") ks, HCount z))
| hd_nums l ns : ~ counting l -> ~ mentions "Unit cell vectors" l -> ~ has_columns 3 l ->
    mentions extra l -> number_line ns l -> Forall (fun n => fits (num_value n)) ns ->
    head_line extra l (Some (text_of extra, HNums ns))
| hd_other l : ~ counting l -> ~ mentions "Unit cell vectors" l -> ~ has_columns 3 l ->
    ~ mentions extra l -> head_line extra l None.
Inductive head_lines (extra : string) : list (list ascii) -> list (list ascii * hval) -> Prop :=
| hds_nil : head_lines extra [] []
| hds_cons l o ls es : head_line extra l o -> head_lines extra ls es ->
    head_lines extra (l :: ls) (match o with Some e => e :: es | None => es end).
(** A line that is exactly a row of three numbers. *)
Definition vector_line (ns : list num) (l : list ascii) : Prop :=
  length ns = 3%nat /\ Forall (fun n => fits (num_value n)) ns /\
  exists t s, l = t ++ s /\ columns ns t /\ blanks s.
Definition cell_line (l : list ascii) : Prop :=
  ~ counting l /\ ~ has_columns 3 l /\ mentions "Unit cell vectors" l.

(** ** The body *)
Record kpoint := { kp_pos : list num; kp_weight : num; kp_up : list num; kp_down : option (list num) }.
Definition plain_num (n : num) : Prop := num_wf n /\ n_frac n <> None /\ n_exp n = None.
(** A sequence of eigenvalues, one per line; other lines do not count. *)
Inductive eigenvalues : list (list ascii) -> list num -> Prop :=
| eg_nil : eigenvalues [] []
| eg_value l n ls ns : trimmed l (write_num n) -> plain_num n -> fits (num_value n) ->
    eigenvalues ls ns -> eigenvalues (l :: ls) (n :: ns)
| eg_other l ls ns : ~ begins "K-point" l -> ~ begins "Spin component" l ->
    ~ (exists n, plain_num n /\ trimmed l (write_num n)) -> eigenvalues ls ns -> eigenvalues (l :: ls) ns.
Definition kpoint_line (pos : list num) (w : num) (l : list ascii) : Prop :=
  begins "K-point" l /\ Forall (fun n => num_wf n /\ fits (num_value n)) (pos ++ [w]) /\
  exists w1 w2, cut nonblank (w1 :: w2 :: map write_num pos ++ [write_num w]) l.
Definition spin_line (z : Z) (l : list ascii) : Prop :=
  begins "Spin component" l /\
  exists w1 w2 n ws, cut nonblank (w1 :: w2 :: write_num n :: ws) l /\ is_int n /\ num_wf n /\ int_value n = z.
Inductive kpoint_block (k : kpoint) : list (list ascii) -> Prop :=
| kb_one l l1 ls : kpoint_line (kp_pos k) (kp_weight k) l -> spin_line 1 l1 -> eigenvalues ls (kp_up k) ->
    kp_down k = None -> kpoint_block k (l :: l1 :: ls)
| kb_two l l1 l2 ls ls' down z : kpoint_line (kp_pos k) (kp_weight k) l -> spin_line 1 l1 -> eigenvalues ls (kp_up k) ->
    z <> 1%Z -> spin_line z l2 -> kp_down k = Some down -> eigenvalues ls' down ->
    kpoint_block k (l :: l1 :: ls ++ l2 :: ls').
Inductive kpoint_blocks : list kpoint -> list (list ascii) -> Prop :=
| kbs_nil : kpoint_blocks [] []
| kbs_cons k ks ls ls' : kpoint_block k ls -> kpoint_blocks ks ls' -> kpoint_blocks (k :: ks) (ls ++ ls').

(** Lines [ls] form a .bands file with header entries [es], cell [v1; v2; v3]
    and k-points [ks]. *)
Inductive bands_file (es : list (list ascii * hval)) (v1 v2 v3 : list num) (ks : list kpoint)
  : list (list ascii) -> Prop :=
| bf hs u l1 l2 l3 body : head_lines "Fermi energy" hs es -> Forall (fun l => ~ has_columns 3 l) hs ->
    cell_line u -> vector_line v1 l1 -> vector_line v2 l2 -> vector_line v3 l3 ->
    kpoint_blocks ks body -> bands_file es v1 v2 v3 ks (hs ++ u :: l1 :: l2 :: l3 :: body).
