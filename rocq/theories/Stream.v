(** The view of a text file the file parsers have: the list of lines still to be
    read.  [for line in file] and [next(file)] take the first one;
    [Block.from_re] and [Block.get_lines] (filewrapper.py 132-252) take several.
    [StreamFacts.v] proves that these agree with [FileWrapper.v]. *)
From Verif Require Import PyBase PyVal Regex.
Local Open Scope list_scope.
Local Open Scope nat_scope.

(** The lines of a file's contents, as [readline] returns them one by one. *)
Fixpoint file_lines (s : str) : list str :=
  match s with
  | [] => []
  | c :: s' => if Ascii.eqb c newline then [c] :: file_lines s'
               else match file_lines s' with [] => [[c]] | l :: ls => (c :: l) :: ls end
  end.

(** filewrapper.py 237-245 over the remaining lines: lines taken, whether the
    loop was left by [break], lines left. *)
Fixpoint l_scan (endp : str -> bool) (n_end found : nat) (ls : list str) : list str * bool * list str :=
  match ls with
  | [] => ([], false, [])
  | l :: ls' =>
      if endp l
      then if S found =? n_end then ([l], true, ls')
           else let '(d, b, r) := l_scan endp n_end (S found) ls' in (l :: d, b, r)
      else let '(d, b, r) := l_scan endp n_end found ls' in (l :: d, b, r)
  end.
(** filewrapper.py 186-252: the block's lines (or the exception) and the lines left. *)
Definition l_from_re (init : str) (ls : list str) (startp endp : str -> bool) (n_end : nat) (eof : bool)
  : result (list str) * list str :=
  if negb (startp init) then (Ok [], ls)
  else let '(d, broke, rest) := l_scan endp n_end 0 ls in
       if broke || eof then (Ok (init :: d), rest) else (Err OSError, rest).

(** filewrapper.py 132-184 *)
Definition l_get_lines (ls : list str) (n : nat) (eof : bool) : result (list str) * list str :=
  if n <? length ls then (Ok (firstn n ls), skipn (S n) ls)
  else if eof then (Ok ls, []) else (Err OSError, []).

(** filewrapper.py 343-344 and 285-300 on the lines of a block. *)
Definition l_bool (ls : list str) : bool := existsb (fun l => negb (isempty (strip l))) ls.
Definition l_remove_bounds (fore back : nat) (ls : list str) : list str :=
  skipn fore (firstn (length ls - back) ls).

(** [float(s)] of a string (the builtin; the parsers otherwise use
    [float(Fraction(s))], see [PyBase.py_float]): decimal notation, no ratios;
    too large values become infinite instead of raising.  Infinities and NaN are
    represented by their bytes.  Simplification: underscores between digits are
    rejected. *)
Definition inf_bits (neg : bool) : float :=
  FBits (map ascii_of_nat [if neg then 255 else 127; 240; 0; 0; 0; 0; 0; 0]).
Definition nan_bits : float := FBits (map ascii_of_nat [127; 248; 0; 0; 0; 0; 0; 0]).
Definition py_float_builtin (s : str) : result float :=
  let (neg, body) := split_sign (strip s) in
  if existsb (str_eqb (lower body)) [$"inf"; $"infinity"] then Ok (inf_bits neg)
  else if str_eqb (lower body) ($"nan") then Ok nan_bits
  else if chr_in "/" s then Err ValueError
  else q <- py_fraction s ;;
       if (float_limit * Zpos (Qden q) <=? Z.abs (Qnum q))%Z
       then Ok (inf_bits (Qnum q <? 0)%Z) else Ok (FQ q).
(** [int(x)] of a float: truncation; infinities and NaN raise. *)
Definition py_trunc (f : float) : result Z :=
  match f with
  | FQ q => Ok (Z.quot (Qnum q) (Zpos (Qden q)))
  | FBits b => if str_eqb b (match nan_bits with FBits n => n | FQ _ => [] end)
               then Err ValueError else Err OverflowError
  end.

(** Group names of a pattern in the order of their opening parentheses, and
    [match.groupdict()]. *)
Fixpoint group_names (r : re) : list string :=
  match r with
  | RSeq a b | RAlt a b | RCond _ a b => group_names a ++ group_names b
  | RRep _ _ _ a | RAhead _ a => group_names a
  | RGrp n a => n :: group_names a
  | _ => []
  end.
Definition opt_val (o : option str) : pyval := match o with Some s => VStr s | None => VNone end.
Definition groupdict (r : re) (x : mres) : list (key * pyval) :=
  map (fun n => (KStr ($n), opt_val (cap (m_caps x) n))) (group_names r).
(** [match.group(name)]; every name used exists in its pattern. *)
Definition group (x : mres) (n : string) : pyval := opt_val (cap (m_caps x) n).
(** ... for a group that took part in every match. *)
Definition group_s (x : mres) (n : string) : str :=
  match cap (m_caps x) n with Some s => s | None => [] end.

(** Sequence unpacking [a, b, *rest, z = l] and the like raise ValueError when
    too short; [last_of] splits off the last element. *)
Definition last_of {A} (l : list A) : result (list A * A) :=
  match rev l with [] => Err ValueError | x :: r => Ok (rev r, x) end.

Definition VF (q : Q) : pyval := VFloat (FQ q).
Definition kstr (s : string) : key := KStr ($s).
