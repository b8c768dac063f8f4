(** Specification of the blocks of .castep files, independent of the parser: what
    the lines of a block say. *)
From Coq Require Import Ascii String List NArith ZArith QArith Qreduction.
From Verif Require Import PyBase PyVal NumSpec SpecLine SpecStr SpecTable SpecBands SpecDict SpecMd.
From Verif Require SpecCell.
Import ListNotations.
Open Scope list_scope.

(** A table: rows, and other lines between them. *)
Inductive laid {A} (row : list ascii -> A -> Prop) (other : list ascii -> Prop) : list (list ascii) -> list A -> Prop :=
| laid_nil : laid row other [] []
| laid_row l a ls rs : row l a -> laid row other ls rs -> laid row other (l :: ls) (a :: rs)
| laid_other l ls rs : other l -> laid row other ls rs -> laid row other (l :: ls) rs.

Definition name := SpecCell.name.
Definition float_of := SpecCell.float_of.
Definition all_fit (ns : list num) : Prop := Forall (fun n => fits (num_value n)) ns.
Definition vector (ns : list num) : pyval := VTuple (map float_of ns).
Definition no_digits (l : list ascii) : Prop := free_of "0123456789" l.
Definition no_capitals (l : list ascii) : Prop := forall c, In c l -> ~ capital c.
(** Titles, borders and column headings. *)
Definition plain (l : list ascii) : Prop := no_digits l \/ no_capitals l.
(** A word may start after [a]. *)
Definition edge (a : list ascii) : Prop := forall t c, a = t ++ [c] -> ~ word_char c.
(** A species and the number of the atom. *)
Inductive numbered_atom : list ascii -> list ascii * Z -> Prop :=
| na sp g ds : species sp -> blanks g -> g <> [] -> ds <> [] ->
    numbered_atom (sp ++ g ++ write_digits ds) (sp, decimal ds).

(** ** Positions and velocities: an atom and three numbers *)
Definition atom_vector := ((list ascii * Z) * list num)%type.
Inductive vector_row : list ascii -> atom_vector -> Prop :=
| vr a u at_ t ns s : no_capitals a -> edge a -> numbered_atom u at_ -> columns ns t -> length ns = 3%nat ->
    token_end s -> all_fit ns -> vector_row (a ++ u ++ t ++ s) (at_, ns).
Definition vector_entry (r : atom_vector) : key * pyval := (atom_key (fst r), vector (snd r)).

(** ** Forces: a remark in parentheses may follow each number *)
Definition remark (r : list ascii) : Prop :=
  r = [] \/ exists g w, r = g ++ "("%char :: w ++ [")"%char] /\ blanks g /\ w <> [] /\ ~ In ")"%char w.
Inductive remarked : list num -> list ascii -> Prop :=
| rm_nil : remarked [] []
| rm_cons g n r ns t : blanks g -> g <> [] -> num_ok n -> remark r -> remarked ns t ->
    remarked (n :: ns) (g ++ write_num n ++ r ++ t).
(** No remark follows the row. *)
Definition unremarked (s : list ascii) : Prop := forall g t, s = g ++ "("%char :: t -> ~ blanks g.
Inductive force_row : list ascii -> atom_vector -> Prop :=
| fr a u at_ t ns s : no_capitals a -> edge a -> numbered_atom u at_ -> remarked ns t -> length ns = 3%nat ->
    token_end s -> unremarked s -> all_fit ns -> force_row (a ++ u ++ t ++ s) (at_, ns).

(** ** Titles between stars: "**** <kind> Forces ****" *)
Definition stars (s : list ascii) : Prop := s <> [] /\ forall c, In c s -> c = "*"%char.
Inductive kind_of : list ascii -> list ascii -> Prop :=
| kd_none : kind_of [] (text_of "non_descript")
| kd_words nm ws : nm <> [] -> cut letter_or_digit ws nm -> kind_of nm (joined (text_of "_") (map lower ws)).
Inductive title_line (what : string) : list ascii -> list ascii -> Prop :=
| tl a st g nm kw g' st' b k : blanks a -> stars st -> blanks g ->
    (forall c, In c nm -> SpecCell.letter c \/ c = " "%char) -> (forall c t, nm = c :: t -> ~ blank c) ->
    SpecCell.spells what kw -> blanks g' -> stars st' -> blanks b -> kind_of nm k ->
    title_line what (a ++ st ++ g ++ nm ++ kw ++ g' ++ st' ++ b) k.

(** ** Stresses: rows labelled x, y and z *)
Definition labels : list string := ["*  x"; "*  y"; "*  z"]%string.
Definition only_mentions (w : string) (l : list ascii) : Prop :=
  forall v, In v labels -> mentions v l <-> v = w.
Definition unlabelled (l : list ascii) : Prop := forall v, In v labels -> ~ mentions v l.
Record tensor := { t_xx : num; t_xy : num; t_xz : num; t_yx : num; t_yy : num; t_yz : num; t_zx : num; t_zy : num; t_zz : num }.
Definition tensor_ok (t : tensor) : Prop := all_fit [t_xx t; t_xy t; t_xz t; t_yy t; t_yz t; t_zz t].
Inductive tensor_lines (t : tensor) : list (list ascii) -> Prop :=
| tls o1 lx o2 ly o3 lz o4 : Forall unlabelled o1 -> Forall unlabelled o2 -> Forall unlabelled o3 -> Forall unlabelled o4 ->
    only_mentions "*  x" lx -> number_line [t_xx t; t_xy t; t_xz t] lx ->
    only_mentions "*  y" ly -> number_line [t_yx t; t_yy t; t_yz t] ly ->
    only_mentions "*  z" lz -> number_line [t_zx t; t_zy t; t_zz t] lz ->
    tensor_lines t (o1 ++ lx :: o2 ++ ly :: o3 ++ lz :: o4).
(** xx, xy, xz, yy, yz, zz *)
Definition tensor_value (t : tensor) : pyval := vector [t_xx t; t_xy t; t_xz t; t_yy t; t_yz t; t_zz t].

(** ** k-points: "+ <number> x y z weight +" *)
Record kpt := { kp_no : list digit; kp_x : num; kp_y : num; kp_z : num; kp_w : num }.
Definition kpt_nums (k : kpt) : list num := [kp_x k; kp_y k; kp_z k; kp_w k].
Inductive kpt_row : list ascii -> kpt -> Prop :=
| kr a g t b e k : blanks a -> blanks g -> kp_no k <> [] -> columns (kpt_nums k) t -> blanks b -> b <> [] -> blanks e ->
    all_fit (kpt_nums k) ->
    kpt_row (a ++ "+"%char :: g ++ write_digits (kp_no k) ++ t ++ b ++ "+"%char :: e) k.
(** A line on which no digit follows the border. *)
Definition not_kpt (l : list ascii) : Prop :=
  forall a g d r, blanks a -> blanks g -> among "0123456789" d -> l <> a ++ "+"%char :: g ++ d :: r.
(** Read: the weight and the coordinates, the third being the first again. *)
Definition kpt_read (k : kpt) : pyval :=
  VDict false [(name "qpt", vector [kp_x k; kp_y k; kp_x k]); (name "weight", float_of (kp_w k))].
Definition one_digit (k : kpt) : bool := Nat.eqb (length (kp_no k)) 1.

(** ** Bonds: "A 1 -- B 2  population [spin] length" *)
Record bond := { b_from : list ascii * Z; b_to : list ascii * Z; b_pop : num; b_spin : option num; b_len : num }.
Definition bond_nums (b : bond) : list num :=
  b_pop b :: match b_spin b with Some s => [s] | None => [] end ++ [b_len b].
Inductive bond_row : list ascii -> bond -> Prop :=
| br a u g g' v t s b : blanks a -> numbered_atom u (b_from b) -> blanks g -> blanks g' -> numbered_atom v (b_to b) ->
    columns (bond_nums b) t -> blanks s -> all_fit (bond_nums b) ->
    bond_row (a ++ u ++ g ++ text_of "--" ++ g' ++ v ++ t ++ s) b.
Definition not_bond (l : list ascii) : Prop := no_digits l \/ no_capitals l \/ free_of "-" l.
(** The spin is reported when it is given and not zero. *)
Definition bond_spin (b : bond) : list (key * pyval) :=
  match b_spin b with
  | Some n => if Qeq_bool (num_value n) 0 then [] else [(name "spin", float_of n)]
  | None => []
  end.
Definition bond_entry (b : bond) : key * pyval :=
  (bond_key (b_from b, b_to b),
   VDict false ([(name "population", float_of (b_pop b))] ++ bond_spin b ++ [(name "length", float_of (b_len b))])).

(** ** Lines told apart by what they mention *)
(** What is kept of the numbers of a line. *)
Inductive kind := AnInt (i : nat) | AFloat (i : nat) | Ints | Floats.
Inductive kept : kind -> list num -> pyval -> Prop :=
| kp_int i ns n : nth_error ns i = Some n -> is_int n -> kept (AnInt i) ns (VInt (int_value n))
| kp_float i ns n : nth_error ns i = Some n -> fits (num_value n) -> kept (AFloat i) ns (float_of n)
| kp_ints ns : Forall is_int ns -> kept Ints ns (VTuple (map (fun n => VInt (int_value n)) ns))
| kp_floats ns : all_fit ns -> kept Floats ns (vector ns).
(** Rules: a text, and what a line with that text says.  The first rule counts. *)
Definition rules := list (string * (string * kind)).
Inductive told : rules -> list ascii -> option (key * pyval) -> Prop :=
| told_none l : told [] l None
| told_this w k kd rs l ns v : mentions w l -> number_line ns l -> kept kd ns v -> told ((w, (k, kd)) :: rs) l (Some (name k, v))
| told_later w k kd rs l o : ~ mentions w l -> told rs l o -> told ((w, (k, kd)) :: rs) l o.
Inductive all_told (rs : rules) : list (list ascii) -> list (key * pyval) -> Prop :=
| at_nil : all_told rs [] []
| at_some l e ls es : told rs l (Some e) -> all_told rs ls es -> all_told rs (l :: ls) (e :: es)
| at_none l ls es : told rs l None -> all_told rs ls es -> all_told rs (l :: ls) es.
(** The k-points of a supercell or interpolation grid. *)
Definition kpt_rules : rules :=
  [("MP grid size", ("kpoint_mp_grid", Ints)); ("offset", ("kpoint_mp_offset", Floats));
   ("Number of kpoints", ("num_kpoints", AnInt 0))]%string.

(** ** Phonons *)
(** "+ q-pt= <no> ( x y z ) weight +" *)
Definition fixed (n : num) : Prop := num_ok n /\ n_exp n = None /\ n_frac n <> None.
Definition gap (g : list ascii) : Prop := blanks g /\ g <> [].
Inductive qpt_line : list ascii -> list num -> Prop :=
| ql a g1 g2 ds g3 t g4 w g5 r q : gap a -> gap g1 -> blanks g2 -> ds <> [] -> gap g3 -> columns q t -> length q = 3%nat ->
    all_fit q -> gap g4 -> fixed w -> gap g5 ->
    qpt_line (a ++ "+"%char :: g1 ++ text_of "q-pt=" ++ g2 ++ write_digits ds ++ g3 ++ "("%char :: t ++ ")"%char ::
              g4 ++ write_num w ++ g5 ++ "+"%char :: r) q.
(** "+ <no> frequency [irrep] [intensity [Y|N] [intensity] [Y|N]] +": an infrared
    intensity and flag, then those of Raman scattering; the flag of the latter may stand
    without an intensity after the flag of the former. *)
Record mode := { m_no : list digit; m_freq : num; m_irrep : option ascii;
                 m_ir : option (num * option ascii); m_raman : option num; m_raman_flag : option ascii }.
Definition irrep_char (c : ascii) : Prop := (97 <= N_of_ascii c <= 122 \/ 65 <= N_of_ascii c <= 86)%N.
Inductive irrep_field : option ascii -> list ascii -> Prop :=
| if_none : irrep_field None []
| if_some c g : irrep_char c -> gap g -> irrep_field (Some c) (c :: g).
Inductive flag_field : option ascii -> list ascii -> Prop :=
| ff_none : flag_field None []
| ff_some c g : among "YN" c -> gap g -> flag_field (Some c) (c :: g).
Inductive intensity_field : option (num * option ascii) -> list ascii -> Prop :=
| nf_none : intensity_field None []
| nf_some n g o t : fixed n -> fits (num_value n) -> gap g -> flag_field o t -> intensity_field (Some (n, o)) (write_num n ++ g ++ t).
Inductive raman_field : option num -> option ascii -> list ascii -> Prop :=
| rf_none o t : flag_field o t -> raman_field None o t
| rf_some n g o t : fixed n -> fits (num_value n) -> gap g -> flag_field o t -> raman_field (Some n) o (write_num n ++ g ++ t).
Definition flag {A} (o : option (A * option ascii)) : option ascii := match o with Some (_, f) => f | None => None end.
Inductive mode_line : list ascii -> mode -> Prop :=
| mdl a g1 g2 g3 t1 t2 t3 r m : gap a -> gap g1 -> m_no m <> [] -> gap g2 -> fixed (m_freq m) -> fits (num_value (m_freq m)) -> gap g3 ->
    irrep_field (m_irrep m) t1 -> intensity_field (m_ir m) t2 -> raman_field (m_raman m) (m_raman_flag m) t3 ->
    (m_ir m = None -> m_raman m = None) -> (m_raman m = None -> m_raman_flag m <> None -> flag (m_ir m) <> None) -> token_end r ->
    mode_line (a ++ "+"%char :: g1 ++ write_digits (m_no m) ++ g2 ++ write_num (m_freq m) ++ g3 ++ t1 ++ t2 ++ t3 ++ "+"%char :: r) m.
(** Borders, headings, blank lines; other lines begin with a plus sign and a word. *)
Definition worded (l : list ascii) : Prop :=
  exists a g c r, l = a ++ "+"%char :: g ++ c :: r /\ gap a /\ blanks g /\ ~ blank c /\ ~ among "0123456789" c /\ ~ begins "q-pt=" (c :: r).
Definition unmarked (l : list ascii) : Prop := no_digits l \/ (forall a r, gap a -> l <> a ++ "+"%char :: r) \/ worded l.
Definition not_phonon (l : list ascii) : Prop := unmarked l /\ ~ mentions "Rep" l.
(** Character tables: a line of names, "+ Rep Mul | E 2 4 +", a line that is not read,
    then "+ a Eu 1 | 2 0 -2 +" and so on up to a line that is not part of the table *)
Inductive char_title : list ascii -> list (list ascii) -> Prop :=
| cht a g b l w1 w2 w3 w4 hs : unmarked l -> l = a ++ text_of "Rep" ++ g ++ text_of "Mul" ++ b -> gap g -> cut nonblank (w1 :: w2 :: w3 :: w4 :: hs) l -> char_title l hs.
Definition table_stop (l : list ascii) : Prop :=
  (exists a d b, l = a ++ d ++ b /\ length d = 4%nat /\ Forall (among "-=") d) \/ begins " Sum over" l \/ begins " *** Warning" l \/ begins "?" l.
Inductive char_line (hs : list (list ascii)) : list ascii -> pyval -> Prop :=
| chl h t w rep nm mul vs e : ~ In "|"%char h -> ~ In "|"%char t -> ~ table_stop (h ++ "|"%char :: t) ->
    cut nonblank (w :: rep :: nm ++ [write_num mul]) h -> num_wf mul -> is_int mul ->
    cut nonblank (map write_num vs ++ [e]) t -> Forall num_wf vs -> Forall is_int vs ->
    char_line hs (h ++ "|"%char :: t)
      (VDict false ([(name "chars", VTuple (map (fun x => VTuple [VStr (fst x); VInt (int_value (snd x))]) (combine hs vs)));
                     (name "mul", VInt (int_value mul)); (name "rep", VStr rep)] ++ match nm with [] => [] | n :: _ => [(name "name", VStr n)] end)).
(** "+ ------- +" *)
Definition table_end (l : list ascii) : Prop :=
  exists a g d g' b, blanks a /\ blanks g /\ d <> [] /\ Forall (among "-=") d /\ blanks g' /\ blanks b /\ l = a ++ "+"%char :: g ++ d ++ g' ++ "+"%char :: b.
Inductive char_lines : list (list ascii) -> list pyval -> Prop :=
| cht_table h hs x ls rows rest e : char_title h hs -> Forall2 (char_line hs) ls rows -> (forall y r, rest ++ [e] = y :: r -> table_stop y) ->
    Forall (fun l => ~ table_end l) (x :: ls ++ rest) -> table_end e -> char_lines (h :: x :: ls ++ rest ++ [e]) rows.
(** The lines of one q-point, and of a whole table. *)
Definition qblock := (list num * list mode * list pyval)%type.
Inductive phonon_lines : list (list ascii) -> list qblock -> Prop :=
| phl_nil : phonon_lines [] []
| phl_other l ls qs : not_phonon l -> phonon_lines ls qs -> phonon_lines (l :: ls) qs
| phl_q l q ls ms more qs : qpt_line l q -> laid mode_line not_phonon ls ms -> phonon_lines more qs ->
    phonon_lines (l :: ls ++ more) ((q, ms, []) :: qs)
| phl_table l q ls ms tab rows more qs : qpt_line l q -> laid mode_line not_phonon ls ms -> char_lines tab rows -> phonon_lines more qs ->
    phonon_lines (l :: ls ++ tab ++ more) ((q, ms, rows) :: qs).
(** What is read: the columns that are not empty. *)
Definition opt_text (o : option ascii) : pyval := match o with Some c => VStr [c] | None => VNone end.
Definition opt_num (o : option num) : pyval := match o with Some n => float_of n | None => VNone end.
Definition opt_float (o : option (num * option ascii)) : pyval := match o with Some (n, _) => float_of n | None => VNone end.
Definition opt_flag (o : option (num * option ascii)) : pyval := match o with Some (_, f) => opt_text f | None => VNone end.
Definition shown {A} (o : option A) : bool := match o with Some _ => true | None => false end.
Definition column (k : string) (present : mode -> bool) (v : mode -> pyval) (tup : bool) (ms : list mode) : list (key * pyval) :=
  if existsb present ms then [(name k, if tup then VTuple (map v ms) else VList (map v ms))] else [].
Definition qpoint (b : qblock) : pyval :=
  let ms := snd (fst b) in
  VDict false
    ([(name "qpt", vector (fst (fst b)))] ++
     column "N" (fun _ => true) (fun m => VInt (decimal (m_no m))) true ms ++
     column "frequency" (fun _ => true) (fun m => float_of (m_freq m)) true ms ++
     column "irrep" (fun m => shown (m_irrep m)) (fun m => opt_text (m_irrep m)) false ms ++
     column "ir_intensity" (fun m => shown (m_ir m)) (fun m => opt_float (m_ir m)) true ms ++
     column "ir_active" (fun m => shown (flag (m_ir m))) (fun m => opt_flag (m_ir m)) false ms ++
     column "raman_intensity" (fun m => shown (m_raman m)) (fun m => opt_num (m_raman m)) true ms ++
     column "raman_active" (fun m => shown (m_raman_flag m)) (fun m => opt_text (m_raman_flag m)) false ms ++
     match snd b with [] => [] | rows => [(name "char_table", VList rows)] end).
