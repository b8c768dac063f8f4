(** castep_outputs/utilities/type_conv.py (text part; the byte parsers are in
    [Bytes.v]). *)
From Verif Require Import PyBase PyVal Regex CastepRes.
Local Open Scope list_scope.
Local Open Scope nat_scope.

(** The types passed to [to_type].  [complex] is never requested for text by
    the parsers modelled and is left out. *)
Inductive ptype := TInt | TFloat | TBool | TStr.

(** type_conv.py 186: [val.title() in {"T", "True", "1"}] *)
Definition parse_logical (s : str) : bool :=
  existsb (str_eqb (title s)) [$"T"; $"True"; $"1"].

(** type_conv.py 320-326 ([_TYPE_PARSERS]); float is [float(Fraction(val))], 154 *)
Definition parse_text (t : ptype) (s : str) : result pyval :=
  match t with
  | TInt => rmap VInt (py_int s)
  | TFloat => rmap (fun q => VFloat (FQ q)) (py_float s)
  | TBool => Ok (VBool (parse_logical s))
  | TStr => Ok (VStr s)
  end.

(** type_conv.py 395-419.  A bytes object is an iterable of integers. *)
Fixpoint to_type (t : ptype) (v : pyval) : result pyval :=
  match v with
  | VStr s => parse_text t s
  | VDict _ items =>
      rmap (VDict false) (mapM (fun kv => rmap (pair (fst kv)) (to_type t (snd kv))) items)
  | VTuple l | VList l => rmap VTuple (mapM (to_type t) l)
  | VBytes b => Ok (VTuple (map (fun c => VInt (Z.of_N (ord c))) b))
  | _ => Ok v
  end.

(** type_conv.py 51-53.  [types] are the (key, type) pairs in order. *)
Definition fix_data_types (d : list (key * pyval)) (types : list (key * ptype))
  : result (list (key * pyval)) :=
  foldM (fun d kt => match dget key_eqb d (fst kt) with
                     | None => Ok d
                     | Some v => rmap (dset key_eqb d (fst kt)) (to_type (snd kt) v)
                     end) types d.

(** type_conv.py 90-96: [(?:\s*R)+] *)
Definition spaced (r : re) : re := RPlus (RSeq (RStar c_space) r).

(** type_conv.py 87-99 *)
Definition determine_type (s : str) : ptype :=
  if existsb (str_eqb (title s)) [$"T"; $"True"; $"F"; $"False"] then TBool
  else if re_match_test (spaced EXPFNUMBER_RE) s then TFloat
  else if re_match_test (spaced RATIONAL_RE) s then TFloat
  else if re_match_test (spaced INTNUMBER_RE) s then TInt
  else TStr.

(** type_conv.py 127-130 for a sequence of strings... *)
Definition parse_int_or_float_seq (l : list str) : result pyval :=
  to_type (if forallb isdigit l then TInt else TFloat) (VList (map VStr l)).
(** ...and for a single string, where the generator runs over its characters. *)
Definition parse_int_or_float_str (s : str) : result pyval :=
  to_type (if forallb (fun c => isdigit [c]) s then TInt else TFloat) (VStr s).
