(** Specification of more blocks of .castep files, of mixed lines: properties of
    species, dispersion, internal constraints, excited states and parameters;
    independent of the parser. *)
From Coq Require Import Ascii String List Arith NArith ZArith QArith Qreduction.
From Verif Require Import PyBase PyVal NumSpec SpecLine SpecStr SpecTable SpecBands SpecDict SpecMd SpecCastep SpecCastep2 SpecCastep3.
From Verif Require SpecCell.
Import ListNotations.
Open Scope list_scope.

(** ** Properties of species: the words of each line that begins with a species *)
Definition species_word (w : list ascii) : Prop :=
  exists sp r, w = sp ++ r /\ SpecCell.species sp /\ forall c t, r = c :: t -> ~ word_char c.
Definition on_the_fly : list ascii := text_of "on-the-fly".
Inductive species_row : list ascii -> list (list ascii) -> Prop :=
| sw_fly l ws w : cut nonblank (w :: ws) l -> last (w :: ws) [] = on_the_fly -> species_row l [w; on_the_fly]
| sw_words l ws w : cut nonblank (w :: ws) l -> last (w :: ws) [] <> on_the_fly -> species_word w -> species_row l (w :: ws).
Inductive not_species : list ascii -> Prop :=
| ns_blank l : blanks l -> not_species l
| ns_words l ws w : cut nonblank (w :: ws) l -> last (w :: ws) [] <> on_the_fly -> ~ species_word w -> not_species l.

(** ** Dispersion: "name : value" and rows of species *)
Inductive dispersion_item := DKey (k : list ascii) (v : pyval) | DSpecies (sp : list ascii) (c6 r0 : num).
Definition one_colon (l : list ascii) : Prop := count_occ ascii_dec l ":"%char = 1%nat.
Inductive dispersion_row : list ascii -> dispersion_item -> Prop :=
| dr_text k v nm t : ~ In ":"%char k -> ~ In ":"%char v -> key_name k nm -> nm <> text_of "species" -> words_of v t -> ~ mentions "Parameter" k ->
    dispersion_row (k ++ ":"%char :: v) (DKey nm (VStr t))
| dr_number k v nm t n ns : ~ In ":"%char k -> ~ In ":"%char v -> key_name k nm -> nm <> text_of "species" -> words_of v t -> mentions "Parameter" k ->
    number_line (n :: ns) t -> fits (num_value n) -> dispersion_row (k ++ ":"%char :: v) (DKey nm (float_of n))
| dr_species a g sp t s c6 r0 : blanks a -> gap g -> species sp -> columns [c6; r0] t -> all_fit [c6; r0] -> token_end s ->
    ~ one_colon (a ++ "x"%char :: g ++ sp ++ t ++ s) -> dispersion_row (a ++ "x"%char :: g ++ sp ++ t ++ s) (DSpecies sp c6 r0).
Definition not_dispersion (l : list ascii) : Prop := ~ one_colon l /\ ~ has_columns 2 l.
Definition dispersion_keys (rows : list dispersion_item) : list (key * pyval) :=
  flat_map (fun r => match r with DKey k v => [(KStr k, v)] | _ => [] end) rows.
Definition dispersion_species (rows : list dispersion_item) : list (key * pyval) :=
  flat_map (fun r => match r with DSpecies sp c6 r0 => [(KStr sp, VDict false [(name "c6", float_of c6); (name "r0", float_of r0)])] | _ => [] end) rows.
(** The species come first, then what is named. *)
Definition dispersion_read (rows : list dispersion_item) (d : list (key * pyval)) : Prop :=
  exists sp ks, merged (dispersion_species rows) sp /\ merged (dispersion_keys rows) ks /\ d = (name "species", VDict false sp) :: ks.

(** ** Internal constraints *)
(** "atom ( i j k) atom ( i j k) ..." *)
Inductive defined : list ascii -> list (key * pyval) -> Prop :=
| df_end t : ~ In ")"%char t -> no_digits t -> defined t []
| df_skip p t es : ~ In ")"%char p -> no_digits p -> defined t es -> defined (p ++ ")"%char :: t) es
| df_cons p n ns t es : ~ In ")"%char p -> number_line (n :: ns) p -> is_int n -> Forall is_int ns -> defined t es ->
    defined (p ++ ")"%char :: t) ((KInt (int_value n), VTuple (map (fun n => VInt (int_value n)) ns)) :: es).
Definition constraint_kinds : list string := ["Bond"; "Angle"; "Torsion"]%string.
Definition constraint_value (k : string) (target : option num) (current : num) (d : list (key * pyval)) : pyval :=
  VDict false [(name "type", VStr (text_of k)); (name "target", match target with Some t => float_of t | None => VNone end); (name "current", float_of current);
               (name "satisfied", VBool (match target with Some _ => false | None => true end)); (name "constraints", VDict false d)].
Inductive constraint_row : list ascii -> pyval -> Prop :=
| cn_met l i k n defs es d : cut nonblank (i :: text_of k :: write_num n :: text_of "Satisfied" :: defs) l -> In k constraint_kinds ->
    num_ok n -> fits (num_value n) -> defined (joined (text_of " ") defs) es -> merged es d -> constraint_row l (constraint_value k None n d)
| cn_open l i k t n defs es d : cut nonblank (i :: text_of k :: write_num t :: write_num n :: defs) l -> In k constraint_kinds ->
    num_ok t -> num_ok n -> fits (num_value t) -> fits (num_value n) -> defined (joined (text_of " ") defs) es -> merged es d ->
    constraint_row l (constraint_value k (Some t) n d).
(** A row of another kind. *)
Definition bad_constraint (l : list ascii) : Prop :=
  exists i k t n defs, cut nonblank (i :: k :: t :: n :: defs) l /\ forall w, In w constraint_kinds -> k <> text_of w.

(** ** Excited states *)
Definition delta_words : list string := ["MODOS state"; "nr."; "spin"; "Population of state"; "Writing file"]%string.
(** The [i]-th word is the first of them in the line; [i = 5]: none is. *)
Definition delta_kind (i : nat) (l : list ascii) : Prop :=
  ~ begins "Taking band from" l /\ (forall w, nth_error delta_words i = Some w -> mentions w l) /\
  forall j w, (j < i)%nat -> nth_error delta_words j = Some w -> ~ mentions w l.
Definition silent_delta (l : list ascii) : Prop := delta_kind 5 l.
(** A state: the number of its band and its spin *)
Inductive state_lines : list (list ascii) -> Z * Z -> Prop :=
| stl l1 l2 l3 o1 o2 o3 b s bs ss : delta_kind 0 l1 -> Forall silent_delta o1 -> delta_kind 1 l2 -> number_line (b :: bs) l2 -> is_int b ->
    Forall silent_delta o2 -> delta_kind 2 l3 -> number_line (s :: ss) l3 -> is_int s -> Forall silent_delta o3 ->
    state_lines (l1 :: o1 ++ l2 :: o2 ++ l3 :: o3) (int_value b, int_value s).
Inductive all_states : list (list ascii) -> list (Z * Z) -> Prop :=
| as_nil : all_states [] []
| as_cons ls more s ss : state_lines ls s -> all_states more ss -> all_states (ls ++ more) (s :: ss).
(** What is said of a state later *)
Inductive said_row : list ascii -> (Z * Z) * (key * pyval) -> Prop :=
| sd_pop l b s p ns : delta_kind 3 l -> number_line (b :: s :: p :: ns) l -> is_int b -> is_int s -> fits (num_value p) ->
    said_row l ((int_value b, int_value s), (name "pop", float_of p))
| sd_file l ns b s ws w : delta_kind 4 l -> number_line (ns ++ [b; s]) l -> is_int b -> is_int s -> cut nonblank (ws ++ [w]) l ->
    said_row l ((int_value b, int_value s), (name "file", VStr w)).
Definition said_of (bs : Z * Z) (rows : list ((Z * Z) * (key * pyval))) : list (key * pyval) :=
  flat_map (fun r => if (Z.eqb (fst (fst r)) (fst bs) && Z.eqb (snd (fst r)) (snd bs))%bool then [snd r] else []) rows.
Definition state_read (rows : list ((Z * Z) * (key * pyval))) (bs : Z * Z) (v : pyval) : Prop :=
  exists d, v = VDict false d /\ merged ([(name "band", VInt (fst bs)); (name "spin", VInt (snd bs))] ++ said_of bs rows) d.
(** Where the bands are from *)
Inductive from_row : list ascii -> list ascii -> Prop :=
| fr l ws w : begins "Taking band from" l -> cut nonblank (ws ++ [w]) l -> from_row l w.
Definition delta_read (files : list (list ascii)) (ss : list (Z * Z)) (rows : list ((Z * Z) * (key * pyval))) (d : list (key * pyval)) : Prop :=
  exists vs, Forall2 (state_read rows) ss vs /\
  d = (name "states", VList vs) :: match rev files with w :: _ => [(name "file", VStr w)] | [] => [] end.

(** ** Parameters: "*** Group Parameters ***", "output what unit : unit" and
    "name : value" *)
(** Taking a word out wherever it is *)
Inductive removed (w : list ascii) : list ascii -> list ascii -> Prop :=
| rm_none t : ~ (exists u v, t = u ++ w ++ v) -> removed w t t
| rm_next u v v' : ~ (exists a b, u = a ++ w ++ b) -> removed w v v' -> removed w (u ++ w ++ v) (u ++ v').
Definition group_char (c : ascii) : Prop := SpecCell.letter c \/ c = " "%char \/ c = "-"%char.
Definition head_line (l : list ascii) : Prop :=
  exists a s t u, l = a ++ s ++ " "%char :: t ++ " "%char :: "*"%char :: u /\ blanks a /\ stars s /\ t <> [] /\ forall c, In c t -> group_char c.
Definition unit_line (l : list ascii) : Prop :=
  exists a k g v, l = a ++ text_of "output " ++ k ++ text_of " unit" ++ g ++ ":"%char :: v /\ blanks a /\ ~ In newline k /\ blanks g.
Definition starts_number (w : list ascii) : Prop := exists n r, num_ok n /\ w = write_num n ++ r.
Inductive option_value : list ascii -> pyval -> Prop :=
| ov_none v : blanks v -> option_value v (VStr [])
| ov_text v w ws : cut nonblank (w :: ws) v -> ~ starts_number w -> option_value v (VStr (joined (text_of " ") (w :: ws)))
| ov_number v w x : cut nonblank [w] v -> starts_number w -> SpecCell.single_value w x -> option_value v x
| ov_unit v w u us x : cut nonblank (w :: u :: us) v -> starts_number w -> SpecCell.single_value w x -> option_value v (VTuple (x :: VStr u :: map VStr us)).
Inductive param_item := PHead (g : list ascii) | PUnit (k v : list ascii) | PEntry (k : list ascii) (v : pyval).
Inductive param_row : list ascii -> param_item -> Prop :=
| pr_head a s t s2 r t' nm : blanks a -> stars s -> t <> [] -> (forall c, In c t -> group_char c) -> stars s2 -> (forall u, r <> "*"%char :: u) ->
    ~ mentions "Developer Code" (a ++ s ++ " "%char :: t ++ " "%char :: s2 ++ r) ->
    removed (text_of "Parameters") t t' -> words_of t' nm -> param_row (a ++ s ++ " "%char :: t ++ " "%char :: s2 ++ r) (PHead (lower nm))
| pr_unit a k g v e kn vn : blanks a -> ~ In newline k -> blanks g -> ~ In newline v -> ~ In ":"%char v -> (e = [] \/ e = [newline]) ->
    ~ mentions "Developer Code" (a ++ text_of "output " ++ k ++ text_of " unit" ++ g ++ ":"%char :: v ++ e) ->
    words_of k kn -> words_of v vn -> param_row (a ++ text_of "output " ++ k ++ text_of " unit" ++ g ++ ":"%char :: v ++ e) (PUnit kn vn)
| pr_entry parts names nm v x : parts <> [] -> (forall p, In p parts -> ~ In ":"%char p) -> ~ In ":"%char v ->
    ~ head_line (joined (text_of ":") parts ++ ":"%char :: v) -> ~ unit_line (joined (text_of ":") parts ++ ":"%char :: v) ->
    ~ mentions "Developer Code" (joined (text_of ":") parts ++ ":"%char :: v) ->
    Forall2 words_of parts names -> trimmed (joined (text_of " ") names) nm -> option_value v x ->
    param_row (joined (text_of ":") parts ++ ":"%char :: v) (PEntry nm x).
Definition silent_param (l : list ascii) : Prop := ~ mentions "Developer Code" l /\ ~ head_line l /\ ~ In ":"%char l.
(** What is written into the options, in turn: the units so far after each line
    of a unit, the entries of a group when the next group begins. *)
Inductive options_told : list (key * pyval) -> list ascii -> list (key * pyval) -> list param_item -> list (key * pyval) -> Prop :=
| ot_end us g : options_told us g [] [] []
| ot_last us g es d : es <> [] -> merged es d -> options_told us g es [] [(KStr g, VDict false d)]
| ot_head us g h its out : options_told us h [] its out -> options_told us g [] (PHead h :: its) out
| ot_close us g es d h its out : es <> [] -> merged es d -> options_told us h [] its out ->
    options_told us g es (PHead h :: its) ((KStr g, VDict false d) :: out)
| ot_unit us g es k v d its out : merged (us ++ [(KStr k, VStr v)]) d -> options_told (us ++ [(KStr k, VStr v)]) g es its out ->
    options_told us g es (PUnit k v :: its) ((name "output_units", VDict false d) :: out)
| ot_entry us g es k v its out : options_told us g (es ++ [(KStr k, v)]) its out -> options_told us g es (PEntry k v :: its) out.
Definition options_read (its : list param_item) (d : list (key * pyval)) : Prop := exists out, options_told [] [] [] its out /\ merged out d.
