(** parsers/parse_utilities.py: the header shared by .bands, .phonon and other files. *)
From Verif Require Import PyBase PyVal Regex CastepRes TypeConv DictUtil Stream.
Local Open Scope list_scope.
Local Open Scope nat_scope.

(** [d[k].append(v)] on a defaultdict(list) whose values may be other things too. *)
Definition append_to (d : dict) (k : key) (v : pyval) : result dict :=
  match dget key_eqb d k with
  | None => Ok (dset key_eqb d k (VList [v]))
  | Some (VList l) => Ok (dset key_eqb d k (VList (l ++ [v])))
  | Some _ => Err AttributeError
  end.
(** utility.py 345-346 on such a dict *)
Definition stack_vals (d : dict) (row : dict) : result dict :=
  foldM (fun d kv => append_to d (fst kv) (snd kv)) row d.

(** utility.py 181-187 on a match *)
Definition atom_key (spec : str) (i : Z) : key := KTuple [KStr spec; KInt i].
Definition atreg_match (x : mres) : result key := rmap (atom_key (group_s x "spec")) (py_int (group_s x "index")).

(** [to_type(words, t)] of a list of strings *)
Definition to_tuple (t : ptype) (ws : list str) : result pyval := to_type t (VList (map VStr ws)).

(** parse_utilities.py 41-42: the key and value of a "Number of" line *)
Definition number_of (line : str) : result (key * pyval) :=
  match split line with
  | _ :: _ :: ws =>
      ' (ks, val) <- last_of ws ;;
      f <- py_float_builtin val ;;
      z <- py_trunc f ;;
      Ok (KStr (join ($" ") ks), VInt z)
  | _ => Err ValueError
  end.
(** 54: the alternatives [extra_opts] as a pattern (without options: the empty pattern) *)
Definition extra_re (opts : list string) : re :=
  match opts with [] => REps | _ => RAlts (map RLit opts) end.

(** 39-55: the loop over the lines, with [next(block)] taking further lines *)
Fixpoint header_loop (opts : list string) (ls : list str) (data coords : dict) : result (dict * dict) :=
  match ls with
  | [] => Ok (data, coords)
  | line :: rest =>
      if startswith ($"Number of") (strip line) then
        ' (k, v) <- number_of line ;; header_loop opts rest (dset key_eqb data k v) coords
      else if contains ($"Unit cell vectors") line then
        match rest with
        | a :: rest1 =>
            va <- to_tuple TFloat (split a) ;;
            match rest1 with
            | b :: rest2 =>
                vb <- to_tuple TFloat (split b) ;;
                match rest2 with
                | c :: rest3 =>
                    vc <- to_tuple TFloat (split c) ;;
                    header_loop opts rest3 (dset key_eqb data (kstr "unit_cell") (VList [va; vb; vc])) coords
                | [] => Err StopIteration
                end
            | [] => Err StopIteration
            end
        | [] => Err StopIteration
        end
      else match re_search ATOMIC_DATA_3VEC line with
      | Some x =>
          ind <- atreg_match x ;;
          v <- to_tuple TFloat [group_s x "x"; group_s x "y"; group_s x "z"] ;;
          header_loop opts rest data (dset key_eqb coords ind v)
      | None =>
      match re_match FRACCOORDS_RE line with
      | Some x =>
          coords <- stack_vals coords (groupdict FRACCOORDS_RE x) ;; header_loop opts rest data coords
      | None =>
      match re_search (extra_re opts) line with
      | Some x =>
          v <- to_tuple TFloat (get_numbers line) ;;
          header_loop opts rest (dset key_eqb data (KStr (m_text x)) v) coords
      | None => header_loop opts rest data coords
      end end end
  end.
(** 20-63 *)
Definition parse_regular_header (opts : list string) (ls : list str) : result dict :=
  ' (data, coords) <- header_loop opts ls [] [] ;;
  coords <- fix_data_types coords [(kstr "index", TInt); (kstr "u", TFloat); (kstr "v", TFloat);
                                   (kstr "w", TFloat); (kstr "mass", TFloat)] ;;
  Ok (dset key_eqb data (kstr "coords") (VDict true coords)).
