(** Specification of pseudopotential strings: how the parts of a definition are
    written one after the other; independent of the parser. *)
From Coq Require Import Ascii String List Arith NArith ZArith QArith Qreduction.
From Verif Require Import PyBase PyVal NumSpec SpecLine SpecStr SpecTable SpecBands SpecMd SpecCastep SpecCastep4 SpecDict.
Import ListNotations.
Open Scope list_scope.

(** ** Projectors: "U", "N1.9", "U1.6+0.1", "L@0.5" *)
Record projector := { pj_type : ascii; pj_rc : option num; pj_e : option (string * num); pj_delta : option num }.
(** How an energy may be introduced *)
Definition energy_marks : list string := ["="; "=+"; "=-"; "+"; "-"]%string.
(** A number without sign or exponent *)
Definition unsigned (n : num) : Prop := num_ok n /\ n_sign n = NoSign /\ n_exp n = None /\ fits (num_value n).
Definition projector_ok (p : projector) : Prop :=
  among "UNGHLP" (pj_type p) /\ (forall n, pj_rc p = Some n -> unsigned n) /\ (forall m n, pj_e p = Some (m, n) -> In m energy_marks /\ unsigned n) /\
  (forall n, pj_delta p = Some n -> unsigned n).
Definition write_projector (p : projector) : list ascii :=
  pj_type p :: match pj_rc p with Some n => write_num n | None => [] end ++
  match pj_e p with Some (m, n) => text_of m ++ write_num n | None => [] end ++
  match pj_delta p with Some n => "@"%char :: write_num n | None => [] end.
(** What introduces the energy, its sign in particular, is not reported. *)
Definition projector_read (p : projector) : pyval :=
  VDict false ((name "type", VStr [pj_type p]) ::
    match pj_rc p with Some n => [(name "beta_rc", float_of n)] | None => [] end ++
    match pj_e p with Some (_, n) => [(name "beta_e", float_of n)] | None => [] end ++
    match pj_delta p with Some n => [(name "beta_delta", float_of n)] | None => [] end).

(** ** Beta functions: "32LGG" *)
Record beta := { b_orbital : digit; b_shell : digit; b_projectors : list projector }.
Definition shell_letter (d : digit) : option string :=
  match d with d0 => Some "s" | d1 => Some "p" | d2 => Some "d" | d3 => Some "f" | _ => None end%string.
Definition beta_ok (b : beta) : Prop := shell_letter (b_shell b) <> None /\ Forall projector_ok (b_projectors b).
Definition write_beta (b : beta) : list ascii := write_digits [b_orbital b; b_shell b] ++ flat_map write_projector (b_projectors b).
Definition beta_read (b : beta) : pyval :=
  VDict false [(name "orbital", VInt (decimal [b_orbital b]));
               (name "shell", VStr (match shell_letter (b_shell b) with Some c => text_of c | None => [] end));
               (name "shell_ind", VInt (decimal [b_shell b])); (name "projectors", VList (map projector_read (b_projectors b)))].

(** ** What is appended: flags in (), shells to test in [], adjustments in braces *)
Inductive extra := Flags (ws : list (list ascii)) | Testing (ws : list (list ascii)) | Adjust (ws : list (list ascii)).
(** A shell with its occupation: "3d0.25" *)
Definition occupied (w : list ascii) : Prop := shell w \/ exists s ds, shell s /\ ds <> [] /\ w = s ++ "."%char :: write_digits ds.
Definition extra_ok (e : extra) : Prop :=
  match e with
  | Flags ws => ws <> [] /\ (forall w, In w ws -> free_of "(),[]{}" w) /\ joined (text_of ",") ws <> []
  | Testing ws => ws = [[]] \/ (ws <> [] /\ Forall occupied ws)
  | Adjust ws => ws <> [] /\ Forall occupied ws
  end.
Definition write_extra (e : extra) : list ascii :=
  match e with
  | Flags ws => "("%char :: joined (text_of ",") ws ++ [")"%char]
  | Testing ws => "["%char :: joined (text_of ",") ws ++ ["]"%char]
  | Adjust ws => "{"%char :: joined (text_of ",") ws ++ ["}"%char]
  end.
Definition extra_kind (e : extra) : nat := match e with Flags _ => 0 | Testing _ => 1 | Adjust _ => 2 end.
Definition said_in (k : nat) (label : string) (es : list extra) : list (key * pyval) :=
  flat_map (fun e => if Nat.eqb (extra_kind e) k then [(name label, VList (map VStr (match e with Flags ws => ws | Testing ws => ws | Adjust ws => ws end)))] else []) es.

(** ** Definitions *)
Inductive fit := NoFit | FitBefore | FitAfter.
Record pspot := { ps_fit : fit; ps_channel : list digit; ps_core : num; ps_inner : option (num * num); ps_coarse : num; ps_medium : num; ps_fine : num;
                  ps_betas : list beta; ps_extras : list extra }.
(** The number these digits are *)
Definition whole (ds : list digit) : num := {| n_sign := NoSign; n_int := ds; n_frac := None; n_exp := None |}.
Definition radius (n : num) : Prop := num_ok n /\ fits (num_value n).
Definition pspot_ok (p : pspot) : Prop :=
  ps_channel p <> [] /\ fits (num_value (whole (ps_channel p))) /\ Forall radius [ps_core p; ps_coarse p; ps_medium p; ps_fine p] /\
  (forall a b, ps_inner p = Some (a, b) -> radius a /\ radius b) /\ ps_betas p <> [] /\ Forall beta_ok (ps_betas p) /\
  Forall extra_ok (ps_extras p) /\ NoDup (map extra_kind (ps_extras p)).
Definition betas_text (p : pspot) : list ascii := joined (text_of ":") (map write_beta (ps_betas p)).
Definition with_bar (n : num) : list ascii := write_num n ++ ["|"%char].
Definition write_pspot (p : pspot) : list ascii :=
  match ps_fit p with FitBefore => ["-"%char] | _ => [] end ++ write_digits (ps_channel p) ++ match ps_fit p with FitAfter => ["-"%char] | _ => [] end ++ ["|"%char] ++
  with_bar (ps_core p) ++ match ps_inner p with Some (a, b) => with_bar a ++ with_bar b | None => [] end ++
  with_bar (ps_coarse p) ++ with_bar (ps_medium p) ++ with_bar (ps_fine p) ++ betas_text p ++ flat_map write_extra (ps_extras p).
Definition tested (e : extra) : bool := match e with Testing _ => true | _ => false end.
Definition pspot_read (p : pspot) : pyval :=
  VDict false (
    [(name "print", VBool (existsb tested (ps_extras p))); (name "poly_fit", VBool (match ps_fit p with NoFit => false | _ => true end));
     (name "beta_functions", VList (map beta_read (ps_betas p))); (name "string", VStr (write_pspot p))] ++
    said_in 2 "adjustment" (ps_extras p) ++ said_in 1 "testing" (ps_extras p) ++ said_in 0 "flags" (ps_extras p) ++
    [(name "local_channel", float_of (whole (ps_channel p))); (name "core_radius", float_of (ps_core p))] ++
    match ps_inner p with Some (a, b) => [(name "beta_radius", float_of a); (name "r_inner", float_of b)] | None => [] end ++
    [(name "coarse", float_of (ps_coarse p)); (name "medium", float_of (ps_medium p)); (name "fine", float_of (ps_fine p));
     (name "beta_function_string", VStr (betas_text p))]).

(** ** The lines of a SPECIES_POT block *)
Definition solid (w : list ascii) : Prop := w <> [] /\ (forall c, In c w -> nonblank c).
Inductive pot_row : list ascii -> key * pyval -> Prop :=
| pr_library a w b : blanks a -> solid w -> blanks b -> pot_row (a ++ w ++ b) (KNone, VStr w)
| pr_file a w g x t : blanks a -> solid w -> gap g -> nonblank x -> ~ In "|"%char (x :: t) -> pot_row (a ++ w ++ g ++ x :: t) (KStr w, VStr (x :: t))
| pr_defined a w g p : blanks a -> solid w -> gap g -> pspot_ok p -> pot_row (a ++ w ++ g ++ write_pspot p) (KStr w, pspot_read p).
