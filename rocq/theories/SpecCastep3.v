(** Specification of the blocks of .castep files that have a row for every atom,
    independent of the parser. *)
From Coq Require Import Ascii String List Arith NArith ZArith QArith.
From Verif Require Import PyBase PyVal NumSpec SpecLine SpecStr SpecTable SpecBands SpecDict SpecMd SpecCastep SpecCastep2.
Import ListNotations.
Open Scope list_scope.

Definition atom := (list ascii * Z)%type.
(** No row: no digits, or none of these characters. *)
Definition lacking (cs : string) (l : list ascii) : Prop := no_digits l \/ free_of cs l.

(** No row of [k] numbers. *)
Definition no_row (k : nat) (l : list ascii) : Prop := plain l \/ ~ has_columns k l.

(** ** Hirshfeld charges: an atom and a number *)
Inductive charge_row : list ascii -> atom * num -> Prop :=
| chr_ a u at_ g n s : gap a -> numbered_atom u at_ -> gap g -> fixed n -> fits (num_value n) -> token_end s ->
    charge_row (a ++ u ++ g ++ write_num n ++ s) (at_, n).
Definition charge_entry (r : atom * num) : key * pyval := (atom_key (fst r), float_of (snd r)).

(** ** Initial spins: "| atom spin moment T|F |" *)
Inductive spin_row : list ascii -> atom * num * num * bool -> Prop :=
| spin_ a g u at_ t s m g2 (b : bool) g3 r : blanks a -> blanks g -> numbered_atom u at_ -> columns [s; m] t -> all_fit [s; m] -> gap g2 -> blanks g3 ->
    spin_row (a ++ "|"%char :: g ++ u ++ t ++ g2 ++ (if b then "T" else "F")%char :: g3 ++ "|"%char :: r) (at_, s, m, b).
Definition spin_entry (r : atom * num * num * bool) : key * pyval :=
  let '(at_, s, m, b) := r in
  (atom_key at_, VDict false [(name "spin", float_of s); (name "magmom", float_of m); (name "fix", VBool b)]).

(** ** Born charges: three rows of three; a label may name the atom *)
Definition unlabelled_end (s : list ascii) : Prop := forall g r, blanks g -> s <> g ++ text_of "ID=" ++ r.
Definition words_are (ns : list num) (l : list ascii) : Prop := cut nonblank (map write_num ns) l /\ Forall num_ok ns /\ all_fit ns.
Inductive born_label : list ascii -> option (list ascii) -> Prop :=
| bl_none s : unlabelled_end s -> token_end s -> born_label s None
| bl_some g lab r : gap g -> lab <> [] -> (forall c, In c lab -> ~ blank c) -> token_end r ->
    born_label (g ++ text_of "ID=" ++ lab ++ r) (Some lab).
Definition born_key (at_ : atom) (lab : option (list ascii)) : key :=
  match lab with None => atom_key at_ | Some w => atom_key (fst at_ ++ text_of " [" ++ w ++ text_of "]", snd at_) end.
Inductive born_item : list (list ascii) -> list (key * pyval) -> Prop :=
| bi_row a u at_ t ns s lab l2 ns2 l3 ns3 : gap a -> numbered_atom u at_ -> columns ns t -> length ns = 3%nat -> Forall fixed ns -> all_fit ns ->
    born_label s lab -> words_are ns2 l2 -> words_are ns3 l3 ->
    born_item [a ++ u ++ t ++ s; l2; l3] [(born_key at_ lab, VTuple [vector ns; vector ns2; vector ns3])]
| bi_other l : plain l -> born_item [l] [].

(** ** Displacements: "temperature atom six numbers", kept by temperature and atom *)
Inductive disp_row : list ascii -> key * (option key * pyval) -> Prop :=
| dsp g n g1 u at_ t ns s : gap g -> num_ok n -> gap g1 -> numbered_atom u at_ -> columns ns t -> length ns = 6%nat -> all_fit ns -> token_end s ->
    disp_row (g ++ write_num n ++ g1 ++ u ++ t ++ s) (KStr (write_num n), (Some (atom_key at_), vector ns)).
Inductive picks {A} (k : key) : list (key * A) -> list A -> Prop :=
| pk_nil : picks k [] []
| pk_this a rows es : picks k rows es -> picks k ((k, a) :: rows) (a :: es)
| pk_other k' a rows es : k' <> k -> picks k rows es -> picks k ((k', a) :: rows) es.
(** What becomes of the entries given for one key: a dictionary of those that name
    a part, or the last of those that do not. *)
Inductive settled : list (option key * pyval) -> pyval -> Prop :=
| st_dict es e : es <> [] -> merged es e -> settled (map (fun kv => (Some (fst kv), snd kv)) es) (VDict false e)
| st_last xs v : settled (xs ++ [(None, v)]) v.
(** For each key, in order of appearance, the entries given for it. *)
Definition nested (rows : list (key * (option key * pyval))) (d : list (key * pyval)) : Prop :=
  exists out, merged rows out /\ map fst out = map fst d /\
    forall k v, In (k, v) d -> exists es, picks k rows es /\ settled es v.

(** ** Mulliken populations *)
Definition shells : list string := ["s"; "p"; "d"; "f"; "total"]%string.
Definition named_floats (names : list string) (ns : list num) : list (key * pyval) := combine (map name names) (map float_of ns).
Inductive popn_item : list (list ascii) -> list (key * pyval) -> Prop :=
| pi_plain a u at_ t ns charge sp s : blanks a -> numbered_atom u at_ -> columns (ns ++ charge :: opt_list sp) t -> length ns = 5%nat ->
    all_fit (ns ++ charge :: opt_list sp) -> blanks s ->
    popn_item [a ++ u ++ t ++ s]
      [(atom_key at_, VDict false ((name "spin_sep", VBool false) :: named_floats shells ns ++
         [(name "charge", float_of charge); (name "spin", match sp with Some n => float_of n | None => VNone end)]))]
| pi_split a u at_ g t up charge sp s a' ds g' t' dn s' tu td : blanks a -> numbered_atom u at_ -> gap g ->
    columns (up ++ charge :: opt_list sp) t -> all_fit (up ++ charge :: opt_list sp) -> length up = 5%nat -> nth_error up 4 = Some tu -> blanks s ->
    gap a' -> ds <> [] -> blanks g' -> columns dn t' -> all_fit dn -> length dn = 5%nat -> nth_error dn 4 = Some td -> token_end s' ->
    popn_item [a ++ u ++ g ++ text_of "up:" ++ t ++ s; a' ++ write_digits ds ++ g' ++ text_of "dn:" ++ t' ++ s']
      [(atom_key at_, VDict false ([(name "spin_sep", VBool true); (name "charge", float_of charge);
                                    (name "spin", match sp with Some n => float_of n | None => VNone end)] ++
         named_floats (map (append "up_") shells) up ++ named_floats (map (append "dn_") shells) dn ++
         [(name "total", exact (num_value tu + num_value td)%Q)]))]
| pi_other l : no_row 6 l -> popn_item [l] [].

(** ** Magnetic resonance *)
Inductive asym := Asym (n : num) | NoAsym.
Inductive asym_text : asym -> list ascii -> Prop :=
| ay_num n : fixed n -> fits (num_value n) -> asym_text (Asym n) (write_num n)
| ay_none : asym_text NoAsym (text_of "N/A").
Definition asym_value (x : asym) : pyval := match x with Asym n => float_of n | NoAsym => VNone end.
(** The columns before and after the asymmetry. *)
Definition magres_cols (task : nat) : list string * bool * list string :=
  match task with
  | 0 => (["cs_iso"; "cs_aniso"], true, [])
  | 1 => (["cs_iso"; "cs_aniso"], true, ["cq"; "eta"])
  | 2 => (["cq"], true, [])
  | 3 => (["fermi_contact"; "spin_dipolar"; "paramagnetic"; "diamagnetic"; "total"], false, [])
  | _ => (["hf_iso"], false, [])
  end%string.
Definition magres_name (task : nat) : string :=
  match task with
  | 0 => "Chemical Shielding"
  | 1 => "Chemical Shielding and Electric Field Gradient"
  | 2 => "Electric Field Gradient"
  | 3 => "(An)Isotropic J-coupling"
  | _ => "Hyperfine"
  end%string.
Inductive asym_field : bool -> option asym -> list ascii -> Prop :=
| af_none : asym_field false None []
| af_some g x w : gap g -> asym_text x w -> asym_field true (Some x) (g ++ w).
Record magres := { mr_atom : atom; mr_before : list num; mr_asym : option asym; mr_after : list num }.
Inductive magres_row (task : nat) : list ascii -> magres -> Prop :=
| mgr a st g u t1 w t2 g2 r x : blanks a -> (task <> 3%nat -> st = []) -> (forall c, In c st -> c = "*"%char) -> blanks g -> numbered_atom u (mr_atom x) ->
    columns (mr_before x) t1 -> length (mr_before x) = length (fst (fst (magres_cols task))) -> all_fit (mr_before x) ->
    asym_field (snd (fst (magres_cols task))) (mr_asym x) w ->
    columns (mr_after x) t2 -> length (mr_after x) = length (snd (magres_cols task)) -> all_fit (mr_after x) -> gap g2 ->
    magres_row task (a ++ "|"%char :: st ++ g ++ u ++ t1 ++ w ++ t2 ++ g2 ++ "|"%char :: r) x.
(** No row: no digits, no bar, or no run of as many numbers as a row begins with. *)
Definition not_magres (task : nat) (l : list ascii) : Prop := lacking "|" l \/ ~ has_columns (length (fst (fst (magres_cols task)))) l.
Definition magres_entry (task : nat) (x : magres) : key * pyval :=
  (atom_key (mr_atom x), VDict false (named_floats (fst (fst (magres_cols task))) (mr_before x) ++ named_floats (snd (magres_cols task)) (mr_after x) ++
     match mr_asym x with Some y => [(name "asym", asym_value y)] | None => [] end)).

(** ** Orbital populations: an atom, its orbital and the charge; totals *)
Definition orbital_name (o : list ascii) : Prop :=
  exists c, among "SPDF" c /\ (o = [c] \/ exists d, among "xyz" d /\ o = [c; d]).
Inductive orbital_row : list ascii -> key * (option key * pyval) -> Prop :=
| obr_orbital a u at_ g o g2 n s : blanks a -> numbered_atom u at_ -> gap g -> orbital_name o -> gap g2 -> num_ok n -> fits (num_value n) -> token_end s ->
    orbital_row (a ++ u ++ g ++ o ++ g2 ++ write_num n ++ s) (atom_key at_, (Some (KStr o), float_of n))
| obr_total a g n s : blanks a -> gap g -> num_ok n -> fits (num_value n) -> token_end s ->
    orbital_row (a ++ text_of "Total:" ++ g ++ write_num n ++ s) (name "total", (None, float_of n))
| obr_projected a r ns : blanks a -> number_line ns (a ++ text_of "The total projected" ++ r) -> all_fit ns ->
    orbital_row (a ++ text_of "The total projected" ++ r) (name "total_projected", (None, vector ns)).
Definition not_orbital (l : list ascii) : Prop := plain l /\ ~ mentions "total projected" l.
