(** Specification of more of the blocks of .castep files, independent of the
    parser: tables of numbers, and lines that name what they say. *)
From Coq Require Import Ascii String List Arith NArith ZArith QArith Qreduction.
From Verif Require Import PyBase PyVal NumSpec SpecLine SpecStr SpecTable SpecBands SpecDict SpecMd SpecCastep.
Import ListNotations.
Open Scope list_scope.

(** The lines of a block, and the numbers on each. *)
Definition numbers_on (l : list ascii) (ns : list num) : Prop := number_line ns l.

(** ** Matrices: the lines of three or six numbers *)
Definition matrix_row (ns : list num) : bool := Nat.eqb (length ns) 3 || Nat.eqb (length ns) 6.
Definition matrix (rows : list (list num)) : pyval := VTuple (map vector rows).
Definition left_half (ns : list num) : list num := firstn 3 ns.
Definition right_half (ns : list num) : list num := firstn 3 (skipn 3 ns).
(** What a block that may hold two matrices side by side is read as. *)
Definition matrices (rows : list (list num)) : result (pyval * pyval) :=
  match rows with
  | [] => Err IndexError
  | r :: _ => Ok (if Nat.eqb (length r) 6 then (matrix (map left_half rows), matrix (map right_half rows)) else (matrix rows, VNone))
  end.

(** ** The unit cell *)
Inductive cell_item := Lattice (real recip : list num) | Angle (side angle : num) | Property (p : num).
Definition angle_names : list string := ["alpha"; "beta"; "gamma"]%string.
Inductive cell_row : list ascii -> cell_item -> Prop :=
| cr_lattice l a b : number_line (a ++ b) l -> length a = 3%nat -> length b = 3%nat -> all_fit a -> all_fit b -> cell_row l (Lattice a b)
| cr_angle l w p q : number_line [p; q] l -> In w angle_names -> mentions w l -> all_fit [p; q] -> cell_row l (Angle p q)
| cr_property l p q : number_line [p; q] l -> (forall w, In w angle_names -> ~ mentions w l) -> all_fit [p] -> cell_row l (Property p).
Definition not_cell_row (l : list ascii) : Prop := exists ns, number_line ns l /\ length ns <> 6%nat /\ length ns <> 2%nat.
Definition cell_read (rows : list cell_item) : list (key * pyval) :=
  [(name "real_lattice", VList (flat_map (fun r => match r with Lattice a _ => [vector a] | _ => [] end) rows));
   (name "recip_lattice", VList (flat_map (fun r => match r with Lattice _ b => [vector b] | _ => [] end) rows));
   (name "lattice_parameters", VList (flat_map (fun r => match r with Angle p _ => [float_of p] | _ => [] end) rows));
   (name "cell_angles", VList (flat_map (fun r => match r with Angle _ q => [float_of q] | _ => [] end) rows))] ++
  combine [name "volume"; name "density_amu"; name "density_g"]
    (flat_map (fun r => match r with Property p => [float_of p] | _ => [] end) rows).

(** ** Occupancies: a band, its eigenvalue and its occupancy *)
Inductive occupancy_row : list ascii -> num * num * num -> Prop :=
| oc l b e o : number_line [b; e; o] l -> is_int b -> all_fit [e; o] -> occupancy_row l (b, e, o).
Definition occupancy (r : num * num * num) : pyval :=
  let '(b, e, o) := r in
  VDict false [(name "band", VInt (int_value b)); (name "eigenvalue", float_of e); (name "occupancy", float_of o)].

(** ** Raman tensors *)
Record raman := { rn_rows : list (num * num * num * option num); rn_ended : bool }.
Definition opt_list {A} (o : option A) : list A := match o with Some a => [a] | None => [] end.
Inductive raman_row : list ascii -> num * num * num * option num -> Prop :=
| rr l x y z o : number_line ([x; y; z] ++ opt_list o) l -> all_fit ([x; y; z] ++ opt_list o) -> ~ mentions "Mode number" l ->
    raman_row l (x, y, z, o).
Definition raman_end (l : list ascii) : Prop :=
  no_digits l /\ ~ mentions "Mode number" l /\ exists b r, gap b /\ l = text_of " +" ++ b ++ "+"%char :: r.
Definition raman_other (l : list ascii) : Prop :=
  no_digits l /\ ~ mentions "Mode number" l /\ forall b r, gap b -> l <> text_of " +" ++ b ++ "+"%char :: r.
Inductive raman_mode : list (list ascii) -> raman -> Prop :=
| rm_ended t ls e os m : mentions "Mode number" t -> laid raman_row raman_other ls (rn_rows m) -> raman_end e -> Forall raman_other os ->
    (3 <= length (rn_rows m))%nat -> rn_ended m = true -> raman_mode (t :: ls ++ e :: os) m
| rm_cut t ls m : mentions "Mode number" t -> laid raman_row raman_other ls (rn_rows m) -> rn_ended m = false -> raman_mode (t :: ls) m.
Inductive raman_lines : list (list ascii) -> list raman -> Prop :=
| rl_nil os : Forall raman_other os -> raman_lines os []
| rl_cons os ls m more ms : Forall raman_other os -> raman_mode ls m -> raman_lines more ms -> raman_lines (os ++ ls ++ more) (m :: ms).
Definition exact (q : Q) : pyval := VFloat (FQ (Qred q)).
(** Entry [i], [j] of the tensor. *)
Definition raman_entry (m : raman) (i j : nat) : Q :=
  match nth_error (rn_rows m) i with
  | Some (x, y, z, _) => match nth_error [x; y; z] j with Some n => num_value n | None => 0 end
  | None => 0
  end.
Definition depolarisation (m : raman) : pyval :=
  match rev (flat_map (fun r => opt_list (snd r)) (rn_rows m)) with n :: _ => float_of n | [] => VNone end.
Definition raman_read (m : raman) : pyval :=
  let rows := map (fun r => let '(x, y, z, _) := r in vector [x; y; z]) (rn_rows m) in
  let e := raman_entry m in
  VDict false
    ([(name "tensor", if rn_ended m then VTuple rows else VList rows); (name "depolarisation", depolarisation m)] ++
     if rn_ended m then
       [(name "trace", exact (e 0%nat 0%nat + e 1%nat 1%nat + e 2%nat 2%nat)%Q);
        (name "ii", exact (e 0%nat 0%nat * e 1%nat 1%nat + e 0%nat 0%nat * e 2%nat 2%nat + e 1%nat 1%nat * e 2%nat 2%nat
                           - e 0%nat 1%nat * e 1%nat 0%nat - e 0%nat 2%nat * e 2%nat 0%nat - e 1%nat 2%nat * e 2%nat 1%nat)%Q)]
     else []).

(** ** The dynamical matrix: two headings, the real parts, "Ion", the imaginary parts *)
Inductive dynamical_row : list ascii -> list num -> Prop :=
| dr l i j ns : number_line (i :: j :: ns) l -> all_fit ns -> dynamical_row l ns.
Definition complex_of (a b : num) : pyval := VComplex (FQ (Qred (num_value a))) (FQ (Qred (num_value b))).
Inductive complex_row : list num -> list num -> pyval -> Prop :=
| cxr a b : length a = length b -> complex_row a b (VTuple (map (fun p => complex_of (fst p) (snd p)) (combine a b))).
Inductive complex_rows : list (list num) -> list (list num) -> list pyval -> Prop :=
| cx_nil : complex_rows [] [] []
| cx_cons a b v re im vs : complex_row a b v -> complex_rows re im vs -> complex_rows (a :: re) (b :: im) (v :: vs).
Inductive dynamical_lines : list (list ascii) -> list (list num) -> list (list num) -> Prop :=
| dl h1 h2 ls1 ion ls2 re im : Forall2 dynamical_row ls1 re -> Forall (fun l => ~ mentions "Ion" l) ls1 -> mentions "Ion" ion ->
    laid dynamical_row no_digits ls2 im -> dynamical_lines (h1 :: h2 :: ls1 ++ ion :: ls2) re im.

(** ** The symmetry analysis of phonons: "what: title", a line, rows of numbers *)
Definition unsigned (n : num) : Prop := n_sign n = NoSign /\ is_int n.
Inductive mixed : list num -> pyval -> Prop :=
| mx_ints ns : Forall unsigned ns -> mixed ns (VTuple (map (fun n => VInt (int_value n)) ns))
| mx_floats ns : ~ Forall unsigned ns -> mixed ns (vector ns).
Inductive mixed_row : list ascii -> pyval -> Prop :=
| mr l n ns v : number_line (n :: ns) l -> all_fit (n :: ns) -> mixed (n :: ns) v -> mixed_row l v.
(** The text between the first colon and the next. *)
Definition after_colon (l t : list ascii) : Prop :=
  exists a r, l = a ++ ":"%char :: t ++ r /\ ~ In ":"%char a /\ ~ In ":"%char t /\ (forall c r', r = c :: r' -> c = ":"%char).

(** ** Lines that name what they say *)
(** The name made of a text: its words, in lower case. *)
Definition key_name (k nm : list ascii) : Prop := exists ws, cut letter_or_digit ws k /\ nm = joined (text_of "_") (map lower ws).
(** "key = number": the number is after the sign. *)
Inductive equals_row : list ascii -> key * pyval -> Prop :=
| eqr k v n ns nm : ~ In "="%char k -> ~ In "="%char v -> number_line (n :: ns) v -> fits (num_value n) -> key_name k nm ->
    equals_row (k ++ "="%char :: v) (KStr nm, float_of n).
(** A line that is not blank and not of that form. *)
Definition not_equals (l : list ascii) : Prop :=
  ~ blanks l /\ (~ In "="%char l \/ exists a b r, l = a ++ "="%char :: b ++ "="%char :: r).
(** Autosolvation: the first number of the line counts, even if it is in the key. *)
Inductive solvation_row : list ascii -> key * pyval -> Prop :=
| svr k v n ns nm : ~ In "="%char k -> number_line (n :: ns) (k ++ "="%char :: v) -> fits (num_value n) -> key_name k nm ->
    solvation_row (k ++ "="%char :: v) (KStr nm, float_of n).
(** Memory: "| what   number MB   number MB" *)
Inductive memory_row : list ascii -> key * pyval -> Prop :=
| mmr a k m g d r nm : blanks a -> k <> [] -> (forall c, In c k -> SpecCell.letter c \/ c = " "%char) -> num_ok m -> fits (num_value m) ->
    gap g -> num_ok d -> fits (num_value d) -> key_name k nm ->
    memory_row (a ++ "|"%char :: k ++ " "%char :: write_num m ++ text_of " MB" ++ g ++ write_num d ++ text_of " MB" ++ r)
      (KStr nm, VDict false [(name "memory", float_of m); (name "disk", float_of d)]).
Definition not_memory (l : list ascii) : Prop := no_digits l \/ free_of "|" l.

(** ** Delocalised internals *)
(** Each text that a line mentions gives an entry. *)
Inductive says (v : pyval) (l : list ascii) : list (string * string) -> list (key * pyval) -> Prop :=
| sy_nil : says v l [] []
| sy_yes w k ws es : mentions w l -> says v l ws es -> says v l ((w, k) :: ws) ((name k, v) :: es)
| sy_no w k ws es : ~ mentions w l -> says v l ws es -> says v l ((w, k) :: ws) es.
Definition space_words : list (string * string) :=
  [("active space", "active_space_size"); ("degrees", "num_dof"); ("primitive", "num_primitive_internals")]%string.
Inductive space_row : list ascii -> list (key * pyval) -> Prop :=
| spr l n ns es : number_line (n :: ns) l -> is_int n -> says (VInt (int_value n)) l space_words es -> space_row l es.
Definition space_other (l : list ascii) : Prop := forall w k, In (w, k) space_words -> ~ mentions w l.
(** A constraint and its coordinate, or a count *)
Inductive deloc_item := Constrains (k v : num) | Counts (what : list ascii) (n : num).
Definition colons (s : list ascii) : Prop := forall c, In c s -> c = ":"%char.
Definition bare (w t : list ascii) : Prop :=
  exists a b, w = a ++ t ++ b /\ colons a /\ colons b /\ (forall c u, t = c :: u -> c <> ":"%char) /\ (forall u c, t = u ++ [c] -> c <> ":"%char).
Inductive deloc_row : list ascii -> deloc_item -> Prop :=
| dcr_map l k v : begins " constraint" l -> number_line [k; v] l -> is_int k -> is_int v -> deloc_row l (Constrains k v)
| dcr_count l a b c d w n more t : begins "Total number of primitive" l -> cut nonblank (a :: b :: c :: d :: w :: write_num n :: more) l ->
    num_ok n -> is_int n -> bare w t -> deloc_row l (Counts t n).
Definition not_deloc (l : list ascii) : Prop := ~ begins " constraint" l /\ ~ begins "Total number of primitive" l.
Definition deloc_map (rows : list deloc_item) : list (key * pyval) :=
  flat_map (fun r => match r with Constrains k v => [(KInt (int_value k), VInt (int_value v))] | _ => [] end) rows.
Definition deloc_counts (rows : list deloc_item) : list (key * pyval) :=
  flat_map (fun r => match r with Counts t n => [(KStr (text_of "num_" ++ t), VInt (int_value n))] | _ => [] end) rows.

(** ** The line minimiser *)
Inductive wvfn_row : list ascii -> list (key * pyval) -> Prop :=
| wr_init l a b : mentions "initial" l -> number_line [a; b] l -> all_fit [a; b] ->
    wvfn_row l [(name "init_energy", float_of a); (name "init_de_dstep", float_of b)]
| wr_step l t ns : ~ mentions "initial" l -> trimmed l t -> begins "| step" t -> number_line ns l -> all_fit ns ->
    wvfn_row l [(name "steps", vector ns)]
| wr_gain l t ns : ~ mentions "initial" l -> trimmed l t -> begins "| gain" t -> number_line ns l -> all_fit ns ->
    wvfn_row l [(name "gain", vector ns)].
Definition not_wvfn (l : list ascii) : Prop :=
  ~ mentions "initial" l /\ exists t, trimmed l t /\ ~ begins "| step" t /\ ~ begins "| gain" t.

(** ** The dipole: some entries take two lines *)
Inductive dipole_item : list (list ascii) -> list (key * pyval) -> Prop :=
| di_total a g w r n ns l : l = a ++ text_of "Total" ++ g ++ w ++ r -> free_of "T" a -> blanks g -> w <> [] ->
    (forall c, In c w -> word_char c) -> (forall c t, r = c :: t -> ~ word_char c) ->
    number_line (n :: ns) l -> fits (num_value n) -> dipole_item [l] [(KStr (text_of "total_" ++ w), float_of n)]
| di_electrons l l' ns : ~ mentions "Total" l -> mentions "Centre" l -> mentions "elec" l -> number_line ns l' -> all_fit ns ->
    dipole_item [l; l'] [(name "centre_electronic", vector ns)]
| di_ions l l' ns : ~ mentions "Total" l -> mentions "Centre" l -> ~ mentions "elec" l -> number_line ns l' -> all_fit ns ->
    dipole_item [l; l'] [(name "centre_positive", vector ns)]
| di_magnitude l n ns : ~ mentions "Total" l -> ~ mentions "Centre" l -> mentions "Magnitude" l -> number_line (n :: ns) l -> fits (num_value n) ->
    dipole_item [l] [(name "dipole_magnitude", float_of n)]
| di_direction l ns : ~ mentions "Total" l -> ~ mentions "Centre" l -> ~ mentions "Magnitude" l -> mentions "Direction" l -> number_line ns l -> all_fit ns ->
    dipole_item [l] [(name "dipole_direction", vector ns)]
| di_other l : ~ mentions "Total" l -> ~ mentions "Centre" l -> ~ mentions "Magnitude" l -> ~ mentions "Direction" l -> dipole_item [l] [].

(** ** Elastic properties *)
(** The text before the first "::". *)
Definition before_colons (l k : list ascii) : Prop :=
  exists v, l = k ++ text_of "::" ++ v /\ ~ mentions "::" (k ++ [":"%char]).
Definition scalar (ns : list num) : pyval := match ns with [n] => float_of n | _ => vector ns end.
Definition numbers (rows : list (list num)) : list (list num) := filter (fun ns => match ns with [] => false | _ => true end) rows.
Inductive elastic_item : list (list ascii) -> list (key * pyval) -> Prop :=
| ei_line l k nm ns : before_colons l k -> key_name k nm -> number_line ns l -> all_fit ns -> elastic_item [l] [(KStr nm, scalar ns)]
| ei_sound l body e rows : ~ mentions "::" l -> mentions "Speed of Sound" l -> Forall (fun x => ~ blanks x) body -> blanks e ->
    Forall2 numbers_on (l :: body ++ [e]) rows -> Forall all_fit rows ->
    elastic_item (l :: body ++ [e]) [(name "speed_of_sound", VTuple (map vector (numbers rows)))]
| ei_other l : ~ mentions "::" l -> ~ mentions "Speed of Sound" l -> elastic_item [l] [].

(** ** Build information *)
Definition words_of (s t : list ascii) : Prop := exists ws, cut nonblank ws s /\ t = joined (text_of " ") ws.
Inductive build_row : list ascii -> key * pyval -> Prop :=
| bldr k v k' nm t : ~ In ":"%char k -> words_of k k' -> key_name k' nm -> words_of v t -> build_row (k ++ ":"%char :: v) (KStr nm, VStr t).
Definition not_build (l : list ascii) : Prop := ~ In ":"%char l.
(** Blocks of lines that follow each other, and all the entries of the blocks. *)
Inductive in_turn (item : list (list ascii) -> list (key * pyval) -> Prop) : list (list ascii) -> list (key * pyval) -> Prop :=
| it_nil : in_turn item [] []
| it_cons b es ls fs : item b es -> in_turn item ls fs -> in_turn item (b ++ ls) (es ++ fs).
