(** castep_outputs/utilities/castep_res.py 154-181 and castep_outputs/processing/processing.py:
    the parts of the name of an atom. *)
From Verif Require Import PyBase PyVal Regex CastepRes DictUtil Stream.
Local Open Scope list_scope.
Local Open Scope nat_scope.

(** castep_res.py 241-243 *)
Definition ATOM_NAME_GRP_RE : re :=
  RSeqs [RGrp "species" SPECIES_RE; ROpt (RSeq (RChar ":") (RGrp "tag" (RPlus c_word))); RWordB;
         ROpt (RSeqs [ws_star; RChar "["; RGrp "label" (RStar (c_notof "]")); RChar "]"])].
(** castep_res.py 179-181: [None] has no groupdict; the values are tested before they are stripped. *)
Definition atom_part (kv : key * pyval) : list (key * pyval) :=
  match snd kv with
  | VStr s => if isempty s then [] else [(fst kv, VStr (strip s))]
  | _ => []
  end.
Definition get_atom_parts (spec : str) : result (list (key * pyval)) :=
  match re_match ATOM_NAME_GRP_RE spec with
  | None => Err AttributeError
  | Some x => Ok (concat (map atom_part (groupdict ATOM_NAME_GRP_RE x)))
  end.
(** processing.py 10-20: the fields of AtomLabel and their defaults *)
Definition LABEL_FIELDS : list (string * option pyval) :=
  [("species", None); ("index", None); ("tag", Some (VStr [])); ("label", Some (VStr []))]%string.
(** [cls] called with keyword arguments only: unknown and missing arguments raise TypeError. *)
Definition label_of (d : list (key * pyval)) : result pyval :=
  if forallb (fun kv => existsb (fun f => key_eqb (fst kv) (kstr (fst f))) LABEL_FIELDS) d then
    rmap VTuple (mapM (fun f => match dget key_eqb d (kstr (fst f)), snd f with
                                | Some v, _ => Ok v
                                | None, Some v => Ok v
                                | None, None => Err TypeError
                                end) LABEL_FIELDS)
  else Err TypeError.
(** processing.py 22-37 *)
Definition from_str (s : str) : result pyval := d <- get_atom_parts s ;; label_of d.
