(** castep_outputs/utilities/filewrapper.py *)
From Verif Require Import PyBase.

(** ** FileWrapper (filewrapper.py 15-110)

    The wrapped text file is its content and its offset ([tell]); [seek] sets
    the offset.  [name], [close], [__del__] (79-110) are not modelled. *)
Record fwrap := {
  fw_content : str;
  fw_off : nat;          (* self.file.tell() *)
  fw_pos : nat;          (* self._pos *)
  fw_lineno : Z          (* self._lineno, filewrapper.py 67-76 *)
}.

(** filewrapper.py 27-30 *)
Definition fw_open (content : str) : fwrap :=
  {| fw_content := content; fw_off := 0; fw_pos := 0; fw_lineno := 0 |}.

(** [readline] of a text file: the text up to and including the next newline,
    the rest of the file when there is none. *)
Definition readline (content : str) (off : nat) : str := fst (take_line (skipn off content)).

(** filewrapper.py 35-41 *)
Definition fw_next (f : fwrap) : result str * fwrap :=
  let line := readline (fw_content f) (fw_off f) in
  let f' := {| fw_content := fw_content f;
               fw_off := fw_off f + length line;
               fw_pos := fw_off f;
               fw_lineno := (fw_lineno f + 1)%Z |} in
  if isempty line then (Err StopIteration, f') else (Ok line, f').

(** filewrapper.py 43-57 *)
Definition fw_rewind (f : fwrap) : result unit * fwrap :=
  if fw_off f =? fw_pos f then (Ok tt, f)
  else (Ok tt, {| fw_content := fw_content f;
                  fw_off := fw_pos f;
                  fw_pos := fw_pos f;
                  fw_lineno := (fw_lineno f - 1)%Z |}).

(** ** Block (filewrapper.py 113-402).  [_name] is not modelled. *)
Record block := {
  b_data : list str;     (* self._data *)
  b_i : Z;               (* self._i *)
  b_base : Z             (* self._lineno *)
}.

(** filewrapper.py 380-390 *)
Definition b_lineno (b : block) : Z := (b_base b + b_i b)%Z.

(** filewrapper.py 352-356 *)
Definition b_next (b : block) : result str * block :=
  let i := (b_i b + 1)%Z in
  let b' := {| b_data := b_data b; b_i := i; b_base := b_base b |} in
  if (Z.of_nat (length (b_data b)) <=? i)%Z then (Err StopIteration, b')
  else match nth_error (b_data b) (Z.to_nat i) with
       | Some l => (Ok l, b')
       | None => (Err IndexError, b')
       end.

(** filewrapper.py 324-341 *)
Definition b_rewind (b : block) : result unit * block :=
  if (b_i b <? 0)%Z
  then (Err ValueError, {| b_data := b_data b; b_i := -1; b_base := b_base b |})
  else (Ok tt, {| b_data := b_data b; b_i := b_i b - 1; b_base := b_base b |}).

(** filewrapper.py 343-344: [any(map(str.strip, self._data))] *)
Definition b_bool (b : block) : bool := existsb (fun l => negb (isempty (strip l))) (b_data b).

(** filewrapper.py 346-347 *)
Definition b_str (b : block) : str := join nl (b_data b).

(** filewrapper.py 358-359 *)
Definition b_len (b : block) : nat := length (b_data b).

(** filewrapper.py 361-366, integer keys: Python indexing, negative from the end. *)
Definition b_getitem (b : block) (k : Z) : result str :=
  let n := Z.of_nat (length (b_data b)) in
  let i := if (k <? 0)%Z then (n + k)%Z else k in
  if (i <? 0)%Z || (n <=? i)%Z then Err IndexError
  else nthE (b_data b) (Z.to_nat i).

(** filewrapper.py 285-300: [data[fore : -back if back else None]] *)
Definition b_remove_bounds (fore back : nat) (b : block) : block :=
  {| b_data := skipn fore (firstn (length (b_data b) - back) (b_data b));
     b_i := b_i b;
     b_base := (b_base b + Z.of_nat fore)%Z |}.

(** ** A source of lines: a FileWrapper or a Block.  (Plain text files, also
    accepted by the code, behave as [FileWrapper] except that their line
    number is taken to be 0.) *)
Inductive source := SFile (f : fwrap) | SBlock (b : block).

Definition src_next (s : source) : result str * source :=
  match s with
  | SFile f => let (r, f') := fw_next f in (r, SFile f')
  | SBlock b => let (r, b') := b_next b in (r, SBlock b')
  end.
Definition src_rewind (s : source) : result unit * source :=
  match s with
  | SFile f => let (r, f') := fw_rewind f in (r, SFile f')
  | SBlock b => let (r, b') := b_rewind b in (r, SBlock b')
  end.
Definition src_lineno (s : source) : Z :=
  match s with SFile f => fw_lineno f | SBlock b => b_lineno b end.

(** filewrapper.py 122-130, 281-283 *)
Definition new_block (parent : option source) (data : list str) : block :=
  {| b_data := data; b_i := -1;
     b_base := match parent with Some p => src_lineno p | None => 0 end |}.

(** An upper bound on the number of [next] calls a loop can make. *)
Definition src_fuel (s : source) : nat :=
  match s with
  | SFile f => S (length (fw_content f) - fw_off f)
  | SBlock b => S (length (b_data b) - Z.to_nat (b_i b + 1))
  end.

(** filewrapper.py 237-245: the [for line in in_file] loop of [from_re].
    Returns the lines collected, whether the loop ended by [break], and the
    source afterwards. *)
Fixpoint from_re_loop (fuel : nat) (endp : str -> bool) (n_end : nat) (found : nat)
  (acc : list str) (s : source) : list str * bool * source :=
  match fuel with
  | O => (acc, false, s)
  | S fuel' =>
      match src_next s with
      | (Ok line, s') =>
          let acc' := acc ++ [line] in
          if endp line
          then if S found =? n_end then (acc', true, s')
               else from_re_loop fuel' endp n_end (S found) acc' s'
          else from_re_loop fuel' endp n_end found acc' s'
      | (Err _, s') => (acc, false, s')
      end
  end.

(** filewrapper.py 186-252.  [startp]/[endp] stand for [re.search(start, .)]
    and [re.search(end, .)]. *)
Definition from_re (init : str) (s : source) (startp endp : str -> bool) (n_end : nat)
  (eof_possible : bool) : result block * source :=
  if negb (startp init) then (Ok (new_block (Some s) []), s)
  else
    let '(data, broke, s') := from_re_loop (src_fuel s) endp n_end 0 [init] s in
    if broke || eof_possible then (Ok (new_block (Some s) data), s')
    else (Err OSError, s').

(** filewrapper.py 171-178: the loop of [get_lines]. *)
Fixpoint get_lines_loop (fuel : nat) (n i : nat) (acc : list str) (s : source)
  : list str * bool * source :=
  match fuel with
  | O => (acc, false, s)
  | S fuel' =>
      match src_next s with
      | (Ok line, s') => if n <? i then (acc, true, s')
                         else get_lines_loop fuel' n (S i) (acc ++ [line]) s'
      | (Err _, s') => (acc, false, s')
      end
  end.

(** filewrapper.py 132-184 *)
Definition get_lines (s : source) (n : nat) (eof_possible : bool) : result block * source :=
  let '(data, broke, s') := get_lines_loop (src_fuel s) n 1 [] s in
  if broke || eof_possible then (Ok (new_block (Some s) data), s')
  else (Err OSError, s').
