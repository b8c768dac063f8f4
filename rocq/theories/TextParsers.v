(** The small text parsers: .err, .hug, *_fmt.  Files are given by their lines. *)
From Verif Require Import PyBase PyVal Regex CastepRes TypeConv DictUtil Stream.
Local Open Scope list_scope.
Local Open Scope nat_scope.

(** ** parsers/err_file_parser.py *)
(** 36-37: [while "Current trace stack" not in (line := next(err_file))] *)
Fixpoint err_message (acc : str) (ls : list str) : result (str * list str) :=
  match ls with
  | [] => Err StopIteration
  | l :: ls' => if contains ($"Current trace stack") l then Ok (acc, ls') else err_message (acc ++ l) ls'
  end.
(** 20-43 *)
Definition parse_err_file (ls : list str) : result pyval :=
  ' (msg, rest) <- err_message [] ls ;;
  Ok (VDict false [(kstr "message", VStr (strip msg)); (kstr "stack", VList (map (fun l => VStr (strip l)) rest))]).

(** ** parsers/hug_file_parser.py *)
(** 40 *)
Definition hug_cols : list string := ["compression"; "temperature"; "pressure"; "energy"]%string.
(** 42-44: one line of the file *)
Definition hug_line (data : list (key * list pyval)) (line : str) : result (list (key * list pyval)) :=
  match re_search (labelled_floats hug_cols) line with
  | Some x => stack_dict true data (groupdict (labelled_floats hug_cols) x)
  | None => Ok data
  end.
(** A defaultdict(list) as a value. *)
Definition lists_val (d : list (key * list pyval)) : list (key * pyval) :=
  map (fun kv => (fst kv, VList (snd kv))) d.
(** 26-47 *)
Definition parse_hug_file (ls : list str) : result pyval :=
  data <- foldM hug_line ls [] ;;
  d <- fix_data_types (lists_val data) (map (fun c => (kstr c, TFloat)) hug_cols) ;;
  Ok (VDict true d).

(** ** parsers/parse_fmt_files.py *)
(** 75-76: skip to the line with "END header" *)
Fixpoint skip_to_end_header (ls : list str) : result (str * list str) :=
  match ls with
  | [] => Err StopIteration
  | l :: ls' => if contains ($"END header") l then Ok (l, ls') else skip_to_end_header ls'
  end.
Definition dquote : ascii := ascii_of_nat 34.
(** 78: a pair of double quotes with at least one other character between them *)
Definition QUOTED_RE : re :=
  RSeqs [RChar dquote; RGrp "1" (RPlus (RChr (fun c => negb (Ascii.eqb c dquote)))); RChar dquote].
(** 78; no match gives None, whose [.group] raises AttributeError *)
Definition fmt_cols (line : str) : result str :=
  match re_search QUOTED_RE line with
  | Some x => Ok (group_s x "1")
  | None => Err AttributeError
  end.
(** 79; for three characters or fewer [cols[3]] raises, so [prop] is always a tuple
    and the branch of 86-90 is never taken *)
Definition fmt_props (cols : str) : result (list str) :=
  if 3 <? length cols then Ok (skipn 3 (split cols)) else Err IndexError.
(** [to_type(words, t)] of a list of strings: the tuple's elements *)
Definition to_types (t : ptype) (ws : list str) : result (list pyval) := mapM (fun w => to_type t (VStr w)) ws.
(** [dict(zip(props, vals, strict=True))] *)
Fixpoint zip_strict {A B} (a : list A) (b : list B) : result (list (A * B)) :=
  match a, b with
  | [], [] => Ok []
  | x :: a', y :: b' => rmap (cons (x, y)) (zip_strict a' b')
  | _, _ => Err ValueError
  end.
(** 83-95: one line of the table *)
Definition fmt_line (props : list str) (qdata : list (key * list pyval)) (line : str)
  : result (list (key * list pyval)) :=
  if isempty (strip line) then Ok qdata
  else
    let words := split line in
    qpt <- to_types TInt (firstn 3 words) ;;
    vs <- to_types TFloat (skipn 3 words) ;;
    row <- zip_strict props vs ;;
    stack_dict true qdata
      (dict_of key_eqb ((kstr "q", VTuple qpt) :: map (fun pv => (KStr (fst pv), snd pv)) row)).
(** 57-97 *)
Definition parse_kpt_info (ls : list str) : result pyval :=
  ' (line, rest) <- skip_to_end_header ls ;;
  cols <- fmt_cols line ;;
  props <- fmt_props cols ;;
  d <- foldM (fmt_line props) rest [] ;;
  Ok (VDict true (lists_val d)).
(** 100-161 *)
Definition parse_elf_fmt_file := parse_kpt_info.
Definition parse_chdiff_fmt_file := parse_kpt_info.
Definition parse_pot_fmt_file := parse_kpt_info.
Definition parse_den_fmt_file := parse_kpt_info.
