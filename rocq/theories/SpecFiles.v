(** Specification of the files made of delimited blocks and of their common header. *)
From Coq Require Import Ascii String List NArith ZArith QArith.
From Verif Require Import PyBase PyVal NumSpec SpecLine SpecStr SpecTable SpecBands SpecDict SpecMd SpecCastep.
Import ListNotations.
Open Scope list_scope.

(** ** Values *)
Definition int_val (n : num) : pyval := VInt (int_value n).
Definition text_val (s : list ascii) : pyval := VStr s.
(** A named column of values *)
Definition named (k : string) (v : pyval) : key * pyval := (KStr (text_of k), v).

(** ** The header of .phonon, .phonon_dos, .efield, .elastic and .tddft files *)
(** An atom in fractional coordinates. *)
Record site := { st_index : num; st_u : num; st_v : num; st_w : num; st_spec : list ascii; st_mass : num }.
Inductive site_line (s : site) : list ascii -> Prop :=
| sl a t g m b : blanks a -> is_int (st_index s) -> num_wf (st_index s) ->
    columns [st_u s; st_v s; st_w s] t -> blanks g -> g <> [] -> symbol (st_spec s) -> columns [st_mass s] m -> blanks b ->
    all_fit [st_u s; st_v s; st_w s; st_mass s] -> no_capitals t ->
    site_line s (a ++ write_num (st_index s) ++ t ++ g ++ st_spec s ++ m ++ b).
Inductive hitem :=
| HEntry (k : list ascii) (v : hval)       (* a count, or numbers *)
| HCell (a b c : list num)
| HSite (s : site)
| HAtom (r : atom_vector).
(** A line of no kind above. *)
Definition no_title (l : list ascii) : Prop := ~ counting l /\ ~ mentions "Unit cell vectors" l.
Inductive header (extra : string) : list (list ascii) -> list hitem -> Prop :=
| hr_nil : header extra [] []
| hr_line l o ls its : head_line extra l o -> header extra ls its ->
    header extra (l :: ls) (match o with Some e => HEntry (fst e) (snd e) :: its | None => its end)
| hr_cell u l1 l2 l3 v1 v2 v3 ls its : cell_line u -> vector_line v1 l1 -> vector_line v2 l2 -> vector_line v3 l3 ->
    header extra ls its -> header extra (u :: l1 :: l2 :: l3 :: ls) (HCell v1 v2 v3 :: its)
| hr_site l s ls its : site_line s l -> no_title l -> header extra ls its -> header extra (l :: ls) (HSite s :: its)
| hr_atom l r ls its : vector_row l r -> no_title l -> header extra ls its -> header extra (l :: ls) (HAtom r :: its).

(** Options of a header: at most one, [extra]; without options every line counts. *)
Definition opts_for (opts : list string) (extra : string) : Prop :=
  (opts = [extra]) \/ (opts = [] /\ extra = ""%string).

Definition sites (its : list hitem) : list site := flat_map (fun i => match i with HSite s => [s] | _ => [] end) its.
Definition atoms (its : list hitem) : list atom_vector := flat_map (fun i => match i with HAtom r => [r] | _ => [] end) its.
Definition item_entry (it : hitem) : list (key * pyval) :=
  match it with
  | HEntry k (HCount z) => [(KStr k, VInt z)]
  | HEntry k (HNums ns) => [(KStr k, vector ns)]
  | HCell a b c => [named "unit_cell" (VList [vector a; vector b; vector c])]
  | _ => []
  end.
Definition site_table (ss : list site) : list (key * pyval) :=
  match ss with
  | [] => []
  | _ => [named "index" (VTuple (map (fun s => int_val (st_index s)) ss)); named "u" (vector (map st_u ss));
          named "v" (vector (map st_v ss)); named "w" (vector (map st_w ss));
          named "spec" (VList (map (fun s => text_val (st_spec s)) ss)); named "mass" (vector (map st_mass ss))]
  end.
(** What a header says: its entries in order, then the coordinates (of one kind). *)
Inductive header_says (its : list hitem) : list (key * pyval) -> Prop :=
| hs_sites : atoms its = [] -> header_says its (flat_map item_entry its ++ [named "coords" (VDict true (site_table (sites its)))])
| hs_atoms cd : sites its = [] -> merged (map vector_entry (atoms its)) cd ->
    header_says its (flat_map item_entry its ++ [named "coords" (VDict true cd)]).

(** ** Blocks *)
(** [l], [body], [l'] is a block from [s] to the next [e]. *)
Definition delimited (s e : string) (l : list ascii) (body : list (list ascii)) (l' : list ascii) : Prop :=
  mentions s l /\ Forall (fun x => ~ mentions e x) body /\ mentions e l'.
Inductive header_block (extra : string) (its : list hitem) : list (list ascii) -> Prop :=
| hb l body l' : delimited "BEGIN header" "END header" l body l' -> header extra (l :: body ++ [l']) its ->
    header_block extra its (l :: body ++ [l']).
(** [d] is [d0] and, for every key of [app], the list of its values there. *)
Definition gathered (d0 app d : list (key * pyval)) : Prop :=
  NoDup (map fst d) /\ forall k v, In (k, v) d <->
    In (k, v) d0 \/ exists vs, vs <> [] /\ v = VList vs /\ SpecDict.column k (map (fun x => [x]) app) vs.
(** Nothing in [d] goes by these names. *)
Definition unnamed (ks : list string) (d : list (key * pyval)) : Prop := forall k, In k ks -> absent d (KStr (text_of k)).

(** ** Tables of numbers *)
Inductive num_row (k : nat) : list ascii -> list num -> Prop :=
| nr t s ns : columns ns t -> length ns = k -> token_end s -> all_fit ns -> num_row k (t ++ s) ns.
(** A row that starts with an integer *)
Inductive int_row (k : nat) : list ascii -> num * list num -> Prop :=
| ir a i t s ns : blanks a -> is_int i -> num_wf i -> columns ns t -> length ns = k -> token_end s -> all_fit ns -> fits (num_value i) ->
    int_row k (a ++ write_num i ++ t ++ s) (i, ns).
Fixpoint columns_named (j : nat) (names : list (list ascii)) (rows : list (list num)) : list (key * pyval) :=
  match names with
  | [] => []
  | n :: names' => (KStr n, vector (nth_column j rows)) :: columns_named (S j) names' rows
  end.
Definition table (names : list (list ascii)) (rows : list (list num)) : pyval := VDict true (columns_named 0 names rows).

(** ** .efield files.  The line before the end of a table is not read. *)
Definition tensor_names : list string := ["xx"; "yy"; "zz"; "yz"; "xz"; "xy"]%string.
Definition field_names : list (list ascii) := map text_of ("freq" :: tensor_names)%string.
Inductive efield_part := Oscillators (rows : list (num * list num)) | Permittivities (rows : list (list num)).
Inductive efield_parts : list (list ascii) -> list efield_part -> Prop :=
| ep_nil : efield_parts [] []
| ep_other l ls ps : ~ mentions "BEGIN header" l -> ~ mentions "BEGIN Oscillator Strengths" l -> ~ mentions "BEGIN permittivity" l ->
    efield_parts ls ps -> efield_parts (l :: ls) ps
| ep_osc l body x l' rows ls ps : ~ mentions "BEGIN header" l ->
    delimited "BEGIN Oscillator Strengths" "END Oscillator Strengths" l (body ++ [x]) l' -> Forall2 (int_row 6) body rows ->
    efield_parts ls ps -> efield_parts (l :: body ++ x :: l' :: ls) (Oscillators rows :: ps)
| ep_perm l body x l' rows ls ps : ~ mentions "BEGIN header" l -> ~ mentions "BEGIN Oscillator Strengths" l ->
    delimited "BEGIN permittivity" "END permittivity" l (body ++ [x]) l' -> Forall2 (num_row 7) body rows ->
    efield_parts ls ps -> efield_parts (l :: body ++ x :: l' :: ls) (Permittivities rows :: ps).
Inductive efield_file (its : list hitem) (ps : list efield_part) : list (list ascii) -> Prop :=
| ef hd ls : header_block "Oscillator Q" its hd -> efield_parts ls ps -> efield_file its ps (hd ++ ls).
Definition efield_entry (p : efield_part) : list (key * pyval) :=
  match p with
  | Oscillators [] | Permittivities [] => []
  | Oscillators rows => [named "oscillator_strengths" (table field_names (map (fun r => fst r :: snd r) rows))]
  | Permittivities rows => [named "permittivity" (table field_names rows)]
  end.

(** ** .phonon_dos files *)
Record gradient := { gr_qpt : list num; gr_weight : num; gr_rows : list (num * (num * num)) }.
Inductive gradient_title (g : gradient) : list ascii -> Prop :=
| gt a b i t s : blanks a -> a <> [] -> blanks b -> is_int i -> num_wf i -> length (gr_qpt g) = 3%nat ->
    columns (gr_qpt g ++ [gr_weight g]) t -> token_end s -> all_fit (gr_qpt g ++ [gr_weight g]) ->
    gradient_title g (a ++ text_of "q-pt=" ++ b ++ write_num i ++ t ++ s).
Inductive gradient_row : list ascii -> num * (num * num) -> Prop :=
| grw l n f g : num_row 3 l [n; f; g] -> is_int n -> ~ mentions "q-pt=" l -> gradient_row l (n, (f, g)).
(** A line of a gradient block that is neither *)
Definition gradient_other (l : list ascii) : Prop := ~ mentions "q-pt=" l /\ ~ has_columns 3 l.
Inductive gradients : list (list ascii) -> list gradient -> Prop :=
| gs_nil : gradients [] []
| gs_more t g ls rest gs : gradient_title g t -> laid gradient_row gradient_other ls (gr_rows g) -> gradients rest gs ->
    gradients (t :: ls ++ rest) (g :: gs).
Inductive dos_part := Gradients (gs : list gradient) | Dos (species : list (list ascii)) (rows : list (list num)).
(** A name: letters, digits and underscores, not starting with a digit. *)
Definition identifier (w : list ascii) : Prop :=
  word w /\ forall c t, w = c :: t -> ~ (48 <= N_of_ascii c <= 57)%N.
Definition dos_names (species : list (list ascii)) : list (list ascii) := text_of "freq" :: text_of "g" :: species.
Inductive dos_parts : list (list ascii) -> list dos_part -> Prop :=
| dp_nil : dos_parts [] []
| dp_other l ls ps : ~ mentions "BEGIN header" l -> ~ mentions "BEGIN GRADIENTS" l -> ~ mentions "BEGIN DOS" l ->
    dos_parts ls ps -> dos_parts (l :: ls) ps
| dp_grad l body l' pre rest gs ls ps : ~ mentions "BEGIN header" l ->
    delimited "BEGIN GRADIENTS" "END GRADIENTS" l body l' -> l :: body ++ [l'] = pre ++ rest ->
    Forall gradient_other pre -> gradients rest gs ->
    dos_parts ls ps -> dos_parts (l :: body ++ l' :: ls) (Gradients gs :: ps)
| dp_dos l w1 w2 w3 w4 w5 species body x l' rows ls ps : ~ mentions "BEGIN header" l -> ~ mentions "BEGIN GRADIENTS" l ->
    delimited "BEGIN DOS" "END DOS" l (body ++ [x]) l' -> cut nonblank (w1 :: w2 :: w3 :: w4 :: w5 :: species) l ->
    Forall identifier species -> NoDup (dos_names species) ->
    Forall2 (num_row (2 + length species)) body rows ->
    dos_parts ls ps -> dos_parts (l :: body ++ x :: l' :: ls) (Dos species rows :: ps).
Inductive dos_file (its : list hitem) (ps : list dos_part) : list (list ascii) -> Prop :=
| df hd ls : header_block "" its hd -> dos_parts ls ps -> dos_file its ps (hd ++ ls).
Definition gradient_val (g : gradient) : pyval :=
  VDict true ([named "qpt" (vector (gr_qpt g)); named "pth" (vector [gr_weight g])] ++
    match gr_rows g with
    | [] => []
    | rs => [named "n" (VTuple (map (fun r => int_val (fst r)) rs)); named "f" (vector (map (fun r => fst (snd r)) rs));
             named "Grad_qf" (vector (map (fun r => snd (snd r)) rs))]
    end).
Definition dos_entry (p : dos_part) : list (key * pyval) :=
  match p with
  | Gradients gs => map (fun g => named "gradients" (gradient_val g)) gs
  | Dos _ [] => []
  | Dos species rows => [named "dos" (table (dos_names species) rows)]
  end.
