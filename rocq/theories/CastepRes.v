(** The regular expressions of castep_outputs/utilities/castep_res.py as terms
    of [Regex.re].  Each definition cites the lines it transcribes. *)
From Verif Require Import PyBase Regex.

(** ** Numbers (castep_res.py 184-227) *)

(** [[+-]?] *)
Definition SIGN : re := ROpt (c_of "+-").

(** castep_res.py 190: [(?:[+-]?(?:\d*\.\d+|\d+\.\d* ))] *)
Definition FNUMBER_RE : re :=
  RSeq SIGN
    (RAlt (RSeqs [RStar c_digit; RChar "."; RPlus c_digit])
          (RSeqs [RPlus c_digit; RChar "."; RStar c_digit])).

(** castep_res.py 195: [(?:[+-]?(?<!\.)\d+(?!\.))] *)
Definition INTNUMBER_RE : re :=
  RSeqs [SIGN; RBehind false (Ascii.eqb "."); RPlus c_digit; RAhead false (RChar ".")].

(** castep_res.py 197 *)
Definition FINTNUMBER_RE : re := RAlt FNUMBER_RE INTNUMBER_RE.

(** castep_res.py 202: [(?:(?:F|I)[Ee][+-]?\d{1,3})] *)
Definition EXPNUMBER_RE : re :=
  RSeqs [RAlt FNUMBER_RE INTNUMBER_RE; c_of "Ee"; SIGN; RRep true 1 (Some 3) c_digit].

(** castep_res.py 207 *)
Definition EXPFNUMBER_RE : re := RAlt EXPNUMBER_RE FNUMBER_RE.

(** castep_res.py 212: [\bINT/INT\b] *)
Definition RATIONAL_RE : re :=
  RSeqs [RWordB; INTNUMBER_RE; RChar "/"; INTNUMBER_RE; RWordB].

(** castep_res.py 217 *)
Definition NUMBER_RE : re := RAlts [EXPNUMBER_RE; FNUMBER_RE; INTNUMBER_RE].

(** castep_res.py 222 *)
Definition FLOAT_RAT_RE : re := RAlts [RATIONAL_RE; EXPFNUMBER_RE; INTNUMBER_RE].

(** castep_res.py 38 (get_numbers) *)
Definition get_numbers (line : str) : list str := findall NUMBER_RE line.

(** castep_res.py 41-92 (labelled_floats).  [counts] are given with the label:
    [None] for an uncounted label, [Some (lo, hi)] for a count ["lo,hi"]
    (a plain count [n] is [Some (n, n)]).  The NotImplementedError guard
    for suffix with counts (82-83) is about the pattern text, not modelled. *)
Definition lf_sep : re := RPlusLazy c_space.    (* default sep [\s+?] *)
Definition labelled_float (sep suffix : re) (lc : string * option (nat * nat)) : re :=
  match snd lc with
  | Some (lo, hi) => RGrp (fst lc) (RRep true lo (Some hi) (RSeqs [sep; NUMBER_RE; suffix]))
  | None => RSeqs [sep; RGrp (fst lc) NUMBER_RE; suffix]
  end.
Definition labelled_floats_gen (sep suffix : re) (l : list (string * option (nat * nat))) : re :=
  RSeqs (map (labelled_float sep suffix) l).
Definition labelled_floats (labels : list string) : re :=
  labelled_floats_gen lf_sep REps (map (fun x => (x, None)) labels).

(** castep_res.py 227 *)
Definition THREEVEC_RE : re := labelled_floats_gen lf_sep REps [("val"%string, Some (3, 3))].

(** ** Atoms and tags (castep_res.py 229-275, 571-574) *)
Definition c_upper : re := RChr is_upper.            (* [A-Z] *)
Definition c_lower : re := RChr is_lower.            (* [a-z] *)
(** castep_res.py 233 *)
Definition SPECIES_RE : re := RSeq c_upper (RRep true 0 (Some 2) c_lower).
(** castep_res.py 237 *)
Definition ATOM_NAME_RE : re :=
  RSeqs [RWordB; SPECIES_RE; ROpt (RSeq (RChar ":") (RPlus c_word)); RWordB;
         ROpt (RSeqs [ws_star; RChar "["; RPlus (c_notof "]"); RChar "]"])].
(** castep_res.py 256 *)
Definition TAG_RE : re := RSeqs [RLit "<--"; ws_star; RGrp "tag" (RPlus c_word)].
(** castep_res.py 261 *)
Definition EMPTY : re := RSeqs [RBol; ws_star; REol].
(** castep_res.py 266 *)
Definition ATOM_RE : re := RSeqs [RGrp "spec" ATOM_NAME_RE; ws_plus; RGrp "index" (RPlus c_digit)].
(** constants.py: FST_D *)
Definition FST_D : list string := ["x"; "y"; "z"]%string.
(** castep_res.py 273 *)
Definition ATOMIC_DATA_3VEC : re := RSeq ATOM_RE (labelled_floats FST_D).
(** castep_res.py 275 *)
Definition ATOMIC_DATA_TAG : re := RSeqs [ws_star; ATOMIC_DATA_3VEC; ws_star; TAG_RE].
(** castep_res.py 571-574 *)
Definition FRACCOORDS_RE : re :=
  RSeqs [ws_star; RGrp "index" INTNUMBER_RE; labelled_floats ["u"; "v"; "w"]%string;
         ws_star; RGrp "spec" SPECIES_RE; labelled_floats ["mass"]%string].
