(** Specification of the polarisation reports of .castep files, independent of the parser. *)
From Coq Require Import Ascii String List Arith NArith ZArith.
From Verif Require Import PyVal NumSpec SpecStr SpecLine SpecTable SpecBands SpecDict SpecMd SpecCastep SpecCastep2 SpecEdges SpecTree.
Import ListNotations.
Open Scope list_scope.

(** "  Polarisation (C/m^2) in Recip Lattice Basis": a name of words, and a unit in parentheses *)
Definition name_char (c : ascii) : Prop := word_char c \/ blank c.
Definition in_parens (u : list ascii) : Prop := u <> [] /\ ~ In ")"%char u.
Inductive titled_unit : list ascii -> list ascii -> list ascii -> Prop :=
| tu a c k nm u r : blanks a -> word_char c -> Forall name_char k -> key_name (c :: k) nm -> in_parens u ->
    titled_unit (a ++ c :: k ++ "("%char :: u ++ ")"%char :: r) nm u.
Definition untitled (l : list ascii) : Prop :=
  forall k u r, k <> [] -> Forall name_char k -> in_parens u -> l <> k ++ "("%char :: u ++ ")"%char :: r.
(** " Ionic Polarisation (Cartesian Basis):    0.0 0.0 0.014284 (e/bohr^2)": the part, three numbers and the unit *)
Inductive part_name : list ascii -> list ascii -> Prop :=
| pn_ionic : part_name (text_of "Ionic") (text_of "ionic")
| pn_elec : part_name (text_of "Elec") (text_of "elec")
| pn_total : part_name (text_of "Total") (text_of "total").
Inductive part_line : list ascii -> list ascii -> list num -> list ascii -> Prop :=
| pl a w p m t ns g u r : blanks a -> part_name w p -> m <> [] -> ~ In ":"%char m -> columns ns t -> length ns = 3 -> all_fit ns -> gap g -> in_parens u ->
    part_line (a ++ w ++ m ++ ":"%char :: t ++ g ++ "("%char :: u ++ ")"%char :: r) p ns u.
(** No ":", or none of the parts is named *)
Definition no_part (l : list ascii) : Prop :=
  ~ In ":"%char l \/ (~ mentions "Ionic" l /\ ~ mentions "Elec" l /\ ~ mentions "Total" l).
Definition contribution : string := "Ionic contribution to polarisation".
(** The tables end with the second line with "=". *)
Definition equals (l : list ascii) : Prop := In "="%char l.
(** "  1 1   6.00    0.500000    0.500000   -0.135200    1.000000    1.000000   -0.811200": number, species, charge, coordinates, polarisation *)
Inductive ion_row : list ascii -> key * pyval -> Prop :=
| ir l i s z x xs : cut nonblank (write_num i :: write_num s :: z :: map write_num (x ++ xs)) l -> num_wf i -> is_int i -> num_wf s -> is_int s ->
    length x = 3 -> Forall num_wf (x ++ xs) -> all_fit (x ++ xs) ->
    ion_row l (KTuple [KInt (int_value s); KInt (int_value i)], VDict false [(name "coords", vector x); (name "polarisation", vector xs)]).
(** "Electronic polarisation     0.000000    0.000000   -0.562849": the first word and the numbers *)
Inductive axis_row : list ascii -> key * pyval -> Prop :=
| ar l w ws ns : cut nonblank (w :: ws) l -> number_line ns l -> all_fit ns -> axis_row l (KStr w, vector ns).
(** " G_1:  (  1.0000,  0.0000,  0.0000   )      0.0000    0.0000    0.0000 (    1.9803 )" *)
Inductive quantum_row (u : list ascii) : list ascii -> key * pyval -> Prop :=
| qr l i dir e io t q : number_line (i :: dir ++ [e; io; t; q]) l -> all_fit (i :: dir ++ [e; io; t; q]) ->
    quantum_row u l (KTuple (map (fun n => KFloat (FQ (Qreduction.Qred (num_value n)))) dir),
      VDict false [(name "elec", float_of e); (name "ionic", float_of io); (name "total", float_of t); (name "quantum", float_of q); (name "units", VStr u)]).
Definition polarisation : key := name "polarisation".
Definition values_of (k : string) (rows : list (key * pyval)) : list said := map (fun kv => ([polarisation; name k; fst kv], snd kv)) rows.
(** What the lines of a report say, in their order.  Tables have at least one row. *)
Definition table_title (l nm u : list ascii) : Prop := ~ mentions contribution l /\ no_part l /\ titled_unit l nm u.
Inductive berry : list (list ascii) -> list said -> Prop :=
| be_end : berry [] []
| be_ions l nm u x y rs ions t i j ns e d r es : mentions contribution l -> titled_unit l nm u -> nm <> text_of "polarisation" -> delimited equals 2 (x :: y :: rs ++ [t; e]) ->
    Forall2 ion_row rs ions -> number_line (i :: j :: ns) t -> all_fit ns -> merged ions d -> berry r es ->
    berry ((l :: x :: y :: rs ++ [t; e]) ++ r) (([KStr nm], VDict false [(name "units", VStr u); (name "total", vector ns); (name "ions", VDict false d)]) :: es)
| be_part l p ns u r es : ~ mentions contribution l -> part_line l p ns u -> berry r es ->
    berry (l :: r) (([KStr p], VDict false [(name "units", VStr u); (name "val", vector ns)]) :: es)
| be_values l u x rs rows e r es : table_title l (text_of "polarisation") u -> ~ mentions "Quantum" l -> u <> text_of "phase" -> delimited equals 2 (x :: rs ++ [e]) ->
    Forall2 axis_row rs rows -> rows <> [] -> berry r es ->
    berry ((l :: x :: rs ++ [e]) ++ r) (([polarisation; name "units"], VStr u) :: values_of "val" rows ++ es)
| be_phases l x rs rows e r es : table_title l (text_of "polarisation") (text_of "phase") -> ~ mentions "Quantum" l -> delimited equals 2 (x :: rs ++ [e]) ->
    Forall2 axis_row rs rows -> rows <> [] -> berry r es ->
    berry ((l :: x :: rs ++ [e]) ++ r) (values_of "phase" rows ++ es)
| be_quanta l u x y rs rows e r es : table_title l (text_of "polarisation") u -> mentions "Quantum" l -> delimited equals 2 (x :: y :: rs ++ [e]) ->
    Forall2 (quantum_row u) rs rows -> rows <> [] -> berry r es ->
    berry ((l :: x :: y :: rs ++ [e]) ++ r) (map (fun kv => ([polarisation; fst kv], snd kv)) rows ++ es)
| be_volume l u x rs rows e d r es : table_title l (text_of "volume_polarisation") u -> delimited equals 2 (x :: rs ++ [e]) ->
    Forall2 axis_row rs rows -> merged ((name "units", VStr u) :: rows) d -> berry r es ->
    berry ((l :: x :: rs ++ [e]) ++ r) (([name "volume_polarisation"], VDict false d) :: es)
| be_skipped l nm u b r es : table_title l nm u -> nm <> text_of "polarisation" -> nm <> text_of "volume_polarisation" -> delimited equals 2 b -> berry r es ->
    berry ((l :: b) ++ r) es
| be_other l r es : ~ mentions contribution l -> no_part l -> untitled l -> berry r es -> berry (l :: r) es.
