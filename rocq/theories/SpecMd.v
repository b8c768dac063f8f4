(** Specification of .md and .geom files. *)
From Coq Require Import Ascii String List NArith ZArith QArith.
From Verif Require Import NumSpec SpecLine SpecStr SpecTable SpecBands.
Import ListNotations.
Open Scope list_scope.

(** ** What a frame says *)
Inductive item :=
| MTime (t : num)
| MRow (tag : list ascii) (ns : list num)
| MAtom (sp : list ascii) (i : Z) (tag : list ascii) (x y z : num).

Definition text_dec := list_eq_dec Ascii.ascii_dec.
(** The time given last; the rows with a tag, in order; the vector given last
    for an atom and a tag. *)
Fixpoint last_time (its : list item) : option num :=
  match its with
  | [] => None
  | it :: its' => match last_time its', it with
                  | Some t, _ => Some t
                  | None, MTime t => Some t
                  | None, _ => None
                  end
  end.
Definition rows_of (tag : list ascii) (its : list item) : list (list num) :=
  flat_map (fun it => match it with MRow t ns => if text_dec t tag then [ns] else [] | _ => [] end) its.
Definition same_atom (sp : list ascii) (i : Z) (sp' : list ascii) (i' : Z) : bool :=
  if text_dec sp sp' then (i =? i')%Z else false.
Fixpoint vector_of (sp : list ascii) (i : Z) (tag : list ascii) (its : list item) : option (num * num * num) :=
  match its with
  | [] => None
  | it :: its' => match vector_of sp i tag its', it with
                  | Some v, _ => Some v
                  | None, MAtom sp' i' tag' x y z =>
                      if same_atom sp i sp' i' then if text_dec tag' tag then Some (x, y, z) else None else None
                  | None, _ => None
                  end
  end.
Definition has_atom (sp : list ascii) (i : Z) (its : list item) : Prop :=
  exists tag x y z, In (MAtom sp i tag x y z) its.

(** Short tags and their long names. *)
Definition long_names : list (string * string) :=
  [("E", "energy"); ("T", "temperature"); ("P", "pressure"); ("h", "lattice_vectors"); ("hv", "lattice_velocity");
   ("S", "stress"); ("R", "position"); ("V", "velocity"); ("F", "force")]%string.
Definition tag_ok (tag : list ascii) : Prop :=
  ~ In tag (map text_of ("ions" :: "time" :: map snd long_names)%string).

(** ** What is to be known of a frame: [V] are the values a parser builds, [tv] of a
    time, [rv] of rows of numbers, [vv] of a vector. *)
Inductive frame_has {V} (tv : num -> V) (rv : list (list num) -> V) (its : list item) : list ascii -> V -> Prop :=
| fh_time t : last_time its = Some t -> frame_has tv rv its (text_of "time") (tv t)
| fh_rows tag : rows_of tag its <> [] -> frame_has tv rv its tag (rv (rows_of tag its))
| fh_long short long : In (short, long) long_names -> rows_of (text_of short) its <> [] ->
    frame_has tv rv its (text_of long) (rv (rows_of (text_of short) its)).
Inductive atom_has {V} (vv : num * num * num -> V) (its : list item) (sp : list ascii) (i : Z) : list ascii -> V -> Prop :=
| ah_tag tag v : vector_of sp i tag its = Some v -> atom_has vv its sp i tag (vv v)
| ah_long short long v : In (short, long) long_names -> vector_of sp i (text_of short) its = Some v ->
    atom_has vv its sp i (text_of long) (vv v).

(** ** How lines say it *)
Definition word_char (c : ascii) : Prop :=
  let n := N_of_ascii c in
  (48 <= n <= 57 \/ 65 <= n <= 90 \/ 97 <= n <= 122 \/ n = 95)%N.
Definition capital (c : ascii) : Prop := (65 <= N_of_ascii c <= 90)%N.
Definition small (c : ascii) : Prop := (97 <= N_of_ascii c <= 122)%N.
Definition word (w : list ascii) : Prop := w <> [] /\ Forall word_char w.
Definition word_end (s : list ascii) : Prop := forall c t, s = c :: t -> ~ word_char c.

(** "<-- TAG" after [body], the first "<" of the line. *)
Definition tagged (body tag line : list ascii) : Prop :=
  exists g e, line = body ++ text_of "<--" ++ g ++ tag ++ e /\
    ~ In "<"%char body /\ blanks g /\ word tag /\ word_end e.
(** A species: capital and up to two small letters, then maybe ":word", then maybe
    a label in brackets. *)
Definition symbol (s : list ascii) : Prop :=
  exists c r, s = c :: r /\ capital c /\ Forall small r /\ (length r <= 2)%nat.
Definition suffix (s : list ascii) : Prop := s = [] \/ exists w, s = ":"%char :: w /\ word w.
Definition label (s : list ascii) : Prop :=
  s = [] \/ exists g w, s = g ++ "["%char :: w ++ ["]"%char] /\ blanks g /\ w <> [] /\ ~ In "]"%char w.
Definition species (s : list ascii) : Prop :=
  exists a b c, s = a ++ b ++ c /\ symbol a /\ suffix b /\ label c.

Inductive md_line : list ascii -> option item -> Prop :=
| ml_blank l : blanks l -> md_line l None
| ml_time l n ns : ~ mentions "<--" l -> number_line (n :: ns) l -> fits (num_value n) -> md_line l (Some (MTime n))
| ml_row l body tag ns : tagged body tag l -> tag_ok tag -> number_line ns l -> Forall (fun n => fits (num_value n)) ns ->
    (forall a c t, body = a ++ c :: t -> blanks a -> ~ capital c) -> md_line l (Some (MRow tag ns))
| ml_atom l a sp g ds i t b tag x y z :
    tagged (a ++ sp ++ g ++ write_digits ds ++ t ++ b) tag l -> tag_ok tag ->
    blanks a -> species sp -> blanks g -> g <> [] -> ds <> [] -> decimal ds = i ->
    columns [x; y; z] t -> Forall (fun n => fits (num_value n)) [x; y; z] -> blanks b -> b <> [] ->
    md_line l (Some (MAtom sp i tag x y z)).
Inductive md_lines : list (list ascii) -> list item -> Prop :=
| mls_nil : md_lines [] []
| mls_cons l o ls its : md_line l o -> md_lines ls its ->
    md_lines (l :: ls) (match o with Some it => it :: its | None => its end).

(** ** Files: a header, maybe, and frames *)
(** [c] is the header's text: its lines joined by line feeds, trimmed. *)
Inductive md_banner : list (list ascii) -> list ascii -> Prop :=
| mbn bs l mid l' c : Forall blanks bs -> ~ blanks l -> mentions "BEGIN header" l ->
    Forall (fun x => ~ mentions "END header" x) mid -> mentions "END header" l' ->
    trimmed (joined [ascii_of_N 10] mid) c -> md_banner (bs ++ l :: mid ++ [l']) c.
Inductive md_header : list (list ascii) -> list ascii -> Prop :=
| mh_none bs : Forall blanks bs -> md_header bs []
| mh_some ls sep c : md_banner ls c -> (sep = [] \/ exists s, sep = [s] /\ blanks s) -> md_header (ls ++ sep) c.
(** The first line of a frame is not blank and does not open a header. *)
Definition frame_start (fr : list (list ascii)) : Prop :=
  exists l ls, fr = l :: ls /\ ~ blanks l /\ ~ mentions "BEGIN header" l.
Definition empty_line : list ascii := [ascii_of_N 10].
(** Blocks of lines, each followed by a line of its own. *)
Definition laid_out (blocks : list (list (list ascii) * list ascii)) : list (list ascii) :=
  concat (map (fun b => fst b ++ [snd b]) blocks).
Definition framed (frames : list (list (list ascii))) : list (list ascii) :=
  laid_out (map (fun fr => (fr, empty_line)) frames).
(** No line of the block is empty. *)
Definition unbroken (fr : list (list ascii)) : Prop := Forall (fun l => l <> [] /\ l <> empty_line) fr.
(** What follows the header: frames, an empty line after each; the last one may
    lack it; blank lines may follow. *)
Inductive md_body : list (list (list ascii)) -> list (list ascii) -> Prop :=
| mb_end bs : Forall blanks bs -> md_body [] bs
| mb_last fr : frame_start fr -> unbroken fr -> md_body [fr] fr
| mb_cons fr frs ls : frame_start fr -> unbroken fr -> md_body frs ls -> md_body (fr :: frs) (fr ++ empty_line :: ls).
(** Frames of the same size: [k] lines and a blank line, [n] characters in all. *)
Definition even (k n : nat) (blocks : list (list (list ascii) * list ascii)) : Prop :=
  Forall (fun b => length (fst b) = k /\ length (concat (fst b)) + length (snd b) = n /\ blanks (snd b) /\
                   ~ Forall blanks (fst b))%nat blocks.

(** ** Python slices of a sequence of [n] elements: the indices selected *)
Definition from_end (n x : Z) : Z := if (x <? 0)%Z then (x + n)%Z else x.
Definition indices (n : Z) (start stop : option Z) (k : Z) : list Z :=
  let all := map Z.of_nat (seq 0 (Z.to_nat n)) in
  if (0 <? k)%Z then
    let a := match start with None => 0%Z | Some x => Z.max 0 (from_end n x) end in
    let b := match stop with None => n | Some x => from_end n x end in
    filter (fun i => (a <=? i) && (i <? b) && ((i - a) mod k =? 0))%Z all
  else
    let a := match start with None => (n - 1)%Z | Some x => Z.min (n - 1) (from_end n x) end in
    let b := match stop with None => (-1)%Z | Some x => from_end n x end in
    filter (fun i => (i <=? a) && (b <? i) && ((a - i) mod (- k) =? 0))%Z (rev all).
(** Python indexing: negative indices count from the end. *)
Definition at_index {A} (l : list A) (z : Z) : option A :=
  let i := from_end (Z.of_nat (length l)) z in
  if (i <? 0)%Z then None else nth_error l (Z.to_nat i).
