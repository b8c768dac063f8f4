(** parsers/md_geom_file_parser.py and tools/md_geom_parser.py.
    Text and bytes are the same thing here (ASCII files, "\n" line ends). *)
From Verif Require Import PyBase PyVal Regex CastepRes TypeConv DictUtil FileWrapper Stream Header.
Local Open Scope list_scope.
Local Open Scope nat_scope.

(** constants.py 22-30 *)
Definition TAG_ALIASES : list (key * key) :=
  map (fun a => (kstr (fst a), kstr (snd a)))
    [("E", "energy"); ("T", "temperature"); ("P", "pressure"); ("h", "lattice_vectors"); ("hv", "lattice_velocity");
     ("S", "stress"); ("R", "position"); ("V", "velocity"); ("F", "force")]%string.
(** [add_aliases(d, TAG_ALIASES)] *)
Definition tag_aliases (d : dict) : result dict := rmap snd (add_aliases key_eqb d TAG_ALIASES false true).

(** ** A frame (md_geom_file_parser.py 73-108).  State: [curr] without its first entry
    "ions", and the value of that entry. *)
Record fstate := { f_curr : dict; f_ions : list (key * dict) }.

(** 102: [curr[tag].append(...)]; "ions" holds a dict *)
Definition append_tag (curr : dict) (tag : str) (v : pyval) : result dict :=
  if str_eqb tag ($"ions") then Err AttributeError else append_to curr (KStr tag) v.
(** The list of a tuple: [[*t]] *)
Definition as_list (v : pyval) : pyval := match v with VTuple l => VList l | v => v end.

(** 90-102 *)
Definition frame_line (st : fstate) (line : str) : result fstate :=
  if isempty (strip line) then Ok st
  else match re_search TAG_RE line with
  | None =>
      w <- nthE (get_numbers line) 0 ;;
      v <- to_type TFloat (VStr w) ;;
      Ok {| f_curr := dset key_eqb (f_curr st) (kstr "time") v; f_ions := f_ions st |}
  | Some t =>
      match re_match ATOMIC_DATA_TAG line with
      | Some x =>
          ion <- atreg_match x ;;
          let ions := match dget key_eqb (f_ions st) ion with
                      | Some _ => f_ions st | None => dset key_eqb (f_ions st) ion [] end in
          v <- to_tuple TFloat (map (group_s x) FST_D) ;;
          props <- dgetE key_eqb ions ion ;;
          Ok {| f_curr := f_curr st;
                f_ions := dset key_eqb ions ion (dset key_eqb props (KStr (group_s x "tag")) v) |}
      | None =>
          v <- to_tuple TFloat (get_numbers line) ;;
          curr <- append_tag (f_curr st) (group_s t "tag") (as_list v) ;;
          Ok {| f_curr := curr; f_ions := f_ions st |}
      end
  end.
(** 104-108: aliases for the dict itself, then for every ion *)
Definition frame_end (st : fstate) : result pyval :=
  curr <- tag_aliases (f_curr st) ;;
  ions <- mapM (fun kv => rmap (fun d => (fst kv, VDict false d)) (tag_aliases (snd kv))) (f_ions st) ;;
  Ok (VDict true ((kstr "ions", VDict false ions) :: curr)).
(** 73-108 *)
Definition parse_md_geom_frame (block : list str) : result pyval :=
  st <- foldM frame_line block {| f_curr := []; f_ions := [] |} ;; frame_end st.

(** ** The header (md_geom_file_parser.py 111-142) *)
(** 126-129: up to the first line that is not blank; [line] keeps the last one read *)
Fixpoint first_text (fuel : nat) (line : str) (s : source) : str * source :=
  match fuel with
  | O => (line, s)
  | S fuel' =>
      match src_next s with
      | (Ok l, s') => if isempty (strip l) then first_text fuel' l s' else (l, s')
      | (Err _, s') => (line, s')
      end
  end.
(** 111-142; the log messages are left out *)
Definition parse_header (s : source) : result str * source :=
  let (line, s1) := first_text (src_fuel s) [] s in
  let (blk, s2) := from_re line s1 (contains ($"BEGIN header")) (contains ($"END header")) 1 false in
  match blk with
  | Err e => (Err e, s2)
  | Ok b =>
      if b_bool b then
        let comment := strip (b_str (b_remove_bounds 1 1 b)) in
        match src_next s2 with
        | (Err e, s3) => (Err e, s3)
        | (Ok l, s3) => if isempty (strip l) then (Ok comment, s3)
                        else let (r, s4) := src_rewind s3 in (rmap (fun _ => comment) r, s4)
        end
      else let (r, s4) := src_rewind s2 in (rmap (fun _ => []) r, s4)
  end.

(** ** parse_md_geom_file (md_geom_file_parser.py 145-181) *)
(** 174: the pattern "^$" *)
Definition NOTHING_RE : re := RSeq RBol REol.
(** 173-175; [fuel] bounds the number of frames *)
Fixpoint md_frames (fuel : nat) (s : source) (steps : list pyval) : result (list pyval) :=
  match fuel with
  | O => Err OutOfFuel
  | S fuel' =>
      let (blk, s') := from_re [] s (fun _ => true) (re_test NOTHING_RE) 1 true in
      b <- blk ;;
      if b_bool b then
        v <- parse_md_geom_frame (b_data b) ;; md_frames fuel' s' (steps ++ [v])
      else Ok steps
  end.
Definition parse_md_geom_file (s : source) : result pyval :=
  let (c, s1) := parse_header s in
  _ <- c ;;
  steps <- md_frames (src_fuel s1) s1 [] ;;
  if isempty steps then Err ValueError else Ok (VList steps).

(** ** tools/md_geom_parser.py: MDGeomParser *)
Record mdp := {
  p_handle : fwrap;
  p_start : nat;            (* _start *)
  p_start_line : Z;         (* _start_line *)
  p_frame_lines : Z;        (* _frame_lines *)
  p_frame_bytes : nat;      (* _frame_bytes *)
  p_len : nat;              (* _len *)
  p_next : option Z         (* _next_frame *)
}.

(** 48-49: [while next(handle).strip(): pass] *)
Fixpoint skip_frame (fuel : nat) (f : fwrap) : result unit * fwrap :=
  match fuel with
  | O => (Err OutOfFuel, f)
  | S fuel' =>
      match fw_next f with
      | (Ok l, f') => if isempty (strip l) then (Ok tt, f') else skip_frame fuel' f'
      | (Err e, f') => (Err e, f')
      end
  end.
(** 92-97 *)
Definition go_to_frame (p : mdp) (frame : Z) : mdp :=
  let h := p_handle p in
  {| p_handle := {| fw_content := fw_content h;
                    fw_off := p_start p + p_frame_bytes p * Z.to_nat frame;
                    fw_pos := fw_pos h;
                    fw_lineno := (p_start_line p + frame * p_frame_lines p)%Z |};
     p_start := p_start p; p_start_line := p_start_line p; p_frame_lines := p_frame_lines p;
     p_frame_bytes := p_frame_bytes p; p_len := p_len p;
     p_next := if (frame <? Z.of_nat (p_len p))%Z then Some frame else None |}.
(** 31-70, on the contents of an existing file.  Simplification: the estimated
    number of frames is computed exactly, not in floating point (same result for
    files below 2^53 bytes); the warning about a non-integral estimate (57-67)
    has no effect on the state. *)
Definition md_open (content : str) : result mdp :=
  match parse_header (SFile (fw_open content)) with
  | (Err e, _) => Err e
  | (Ok _, SBlock _) => Err OutOfFuel           (* a file stays a file *)
  | (Ok _, SFile f) =>
      match skip_frame (src_fuel (SFile f)) f with
      | (Err e, _) => Err e
      | (Ok _, f') =>
          let fb := fw_off f' - fw_off f in
          Ok (go_to_frame {| p_handle := f'; p_start := fw_off f; p_start_line := fw_lineno f;
                             p_frame_lines := (fw_lineno f' - fw_lineno f - 1)%Z; p_frame_bytes := fb;
                             p_len := (length content - fw_off f) / fb; p_next := None |} 0)
      end
  end.
(** 155-172 *)
Definition read_next (p : mdp) : result pyval * mdp :=
  let (blk, s) := get_lines (SFile (p_handle p)) (Z.to_nat (p_frame_lines p)) true in
  let with_state n := {| p_handle := match s with SFile f => f | SBlock _ => p_handle p end;
     p_start := p_start p; p_start_line := p_start_line p; p_frame_lines := p_frame_lines p;
     p_frame_bytes := p_frame_bytes p; p_len := p_len p; p_next := n |} in
  match blk with
  | Err e => (Err e, with_state (p_next p))
  | Ok b =>
      if b_bool b then
        match p_next p with
        | None => (Err TypeError, with_state None)
        | Some n => (parse_md_geom_frame (b_data b),
                     with_state (if (n <? Z.of_nat (p_len p) - 1)%Z then Some (n + 1)%Z else None))
        end
      else (Err StopIteration, with_state (p_next p))
  end.
(** 99-126 *)
Definition get_frame (p : mdp) (frame : Z) : result pyval * mdp :=
  let n := Z.of_nat (p_len p) in
  if negb ((- n <=? frame) && (frame <? n))%Z then (Err IndexError, p)
  else
    let frame := if (frame <? 0)%Z then (n + frame)%Z else frame in
    let p := match p_next p with
             | Some k => if (frame =? k)%Z then p else go_to_frame p frame
             | None => go_to_frame p frame
             end in
    read_next p.
(** 198-200: [[self.get_frame(frame) for frame in frames]] *)
Fixpoint get_frames (p : mdp) (frames : list Z) : result (list pyval) * mdp :=
  match frames with
  | [] => (Ok [], p)
  | z :: zs => match get_frame p z with
               | (Err e, p') => (Err e, p')
               | (Ok v, p') => let (r, p'') := get_frames p' zs in (rmap (cons v) r, p'')
               end
  end.
(** [slice.indices(n)] of CPython (PySlice_AdjustIndices) for step other than 0. *)
Definition slice_bound (n : Z) (neg : bool) (x : Z) : Z :=
  if (x <? 0)%Z
  then let y := (x + n)%Z in if (y <? 0)%Z then (if neg then -1 else 0)%Z else y
  else if (n <=? x)%Z then (if neg then n - 1 else n)%Z else x.
Definition slice_indices (n : Z) (start stop step : option Z) : result (Z * Z * Z) :=
  let k := match step with Some k => k | None => 1%Z end in
  if (k =? 0)%Z then Err ValueError
  else
    let neg := (k <? 0)%Z in
    let a := match start with Some x => slice_bound n neg x | None => if neg then (n - 1)%Z else 0%Z end in
    let b := match stop with Some x => slice_bound n neg x | None => if neg then (-1)%Z else n end in
    Ok (a, b, k).
(** [range(a, b, k)] as a list *)
Definition py_range (a b k : Z) : list Z :=
  let m := if (0 <? k)%Z then ((b - a + k - 1) / k)%Z else ((a - b - k - 1) / (- k))%Z in
  map (fun i => (a + Z.of_nat i * k)%Z) (seq 0 (Z.to_nat m)).
(** 202-206 *)
Definition get_slice (p : mdp) (start stop step : option Z) : result (list pyval) * mdp :=
  match slice_indices (Z.of_nat (p_len p)) start stop step with
  | Err e => (Err e, p)
  | Ok (a, b, k) => get_frames p (py_range a b k)
  end.
(** 138-153: the generator of [__iter__]; [sent] is the argument of [send]
    ([next] sends None).  CPython turns a StopIteration from within into RuntimeError. *)
Inductive gen := GNew | GAt (i : Z) | GDone.
Definition gen_next (p : mdp) (g : gen) (sent : option Z) : result pyval * mdp * gen :=
  let go i :=
    if (i <? Z.of_nat (p_len p))%Z then
      match get_frame p i with
      | (Ok v, p') => (Ok v, p', GAt i)
      | (Err e, p') => (Err (match e with StopIteration => RuntimeError | e => e end), p', GDone)
      end
    else (Err StopIteration, p, GDone) in
  match g with
  | GDone => (Err StopIteration, p, GDone)
  | GNew => match sent with Some _ => (Err TypeError, p, GNew) | None => go 0%Z end
  | GAt i => go (match sent with Some t => t | None => i + 1 end)%Z
  end.
