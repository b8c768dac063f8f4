(** Specification of .magres files. *)
From Coq Require Import Ascii String List NArith ZArith QArith.
From Verif Require Import PyBase PyVal NumSpec SpecLine SpecStr SpecTable SpecBands SpecDict SpecMd SpecCastep SpecFiles SpecFiles2.
Import ListNotations.
Open Scope list_scope.

Definition atom : Type := (list ascii * Z)%type.
Definition floats (ns : list num) : pyval := VTuple (map float_of ns).
Definition numbers_ok (ns : list num) : Prop := Forall (fun n => num_wf n /\ fits (num_value n)) ns.
(** A dictionary of what is said last under each name *)
Definition dict_said (es : list (key * pyval)) (v : pyval) : Prop := exists d, merged es d /\ v = VDict false d.

(** ** The calculation block: "calc_NAME words"; names without words are left out *)
Inductive calc_row : list ascii -> option (list ascii * list ascii) -> Prop :=
| cr_bracket l : begins "[" l -> calc_row l None
| cr_empty a k b : ~ begins "[" (a ++ k ++ b) -> blanks a -> blanks b -> k <> [] -> Forall nonblank k -> calc_row (a ++ k ++ b) None
| cr_value a p name g v b : ~ begins "[" (a ++ (p ++ name) ++ g ++ v ++ b) -> blanks a -> blanks g -> g <> [] -> blanks b ->
    length p = 5%nat -> Forall nonblank (p ++ name) -> (exists c t, v = c :: t /\ nonblank c) -> (exists c t, v = t ++ [c] /\ nonblank c) ->
    calc_row (a ++ (p ++ name) ++ g ++ v ++ b) (Some (name, v)).
Definition calc_entry (x : list ascii * list ascii) : key * pyval := (KStr (fst x), VStr (snd x)).
(** The code's version, as given last: the digits before the point *)
Definition version_of (kvs : list (list ascii * list ascii)) (ver : Z) : Prop :=
  exists kvs1 kvs2 ds e, kvs = kvs1 ++ (text_of "code_version", write_digits ds ++ e) :: kvs2 /\ ~ In (text_of "code_version") (map fst kvs2) /\
    ds <> [] /\ (e = [] \/ exists e', e = "."%char :: e') /\ ver = decimal ds.

(** ** The atoms block *)
Inductive site_item := SUnits (k v : list ascii) | SLattice (k : list ascii) (ns : list num) | SAtom (a : atom) (ns : list num).
Inductive site_row : list ascii -> option site_item -> Prop :=
| sr_units l w k v : begins "units" l -> cut nonblank [w; k; v] l -> site_row l (Some (SUnits k v))
| sr_lattice l k ns : begins "lattice" l -> cut nonblank (k :: map write_num ns) l -> numbers_ok ns -> site_row l (Some (SLattice k ns))
| sr_atom l w1 w2 sp ds ns : begins "atom" l -> cut nonblank (w1 :: w2 :: sp :: write_digits ds :: map write_num ns) l -> ds <> [] -> numbers_ok ns ->
    site_row l (Some (SAtom (sp, decimal ds) ns))
| sr_other l : ~ begins "units" l -> ~ begins "lattice" l -> ~ begins "atom" l -> site_row l None.
Definition site_units (it : site_item) : list (key * pyval) := match it with SUnits k v => [(KStr k, VStr v)] | _ => [] end.
Definition site_coords (it : site_item) : list (key * pyval) := match it with SAtom a ns => [(atom_key a, floats ns)] | _ => [] end.
Definition site_lattice (it : site_item) : list (key * pyval) := match it with SLattice k ns => [(KStr k, floats ns)] | _ => [] end.
(** The dictionary of the block: units, coordinates and the lattice *)
Inductive sites_said (its : list site_item) : list (key * pyval) -> Prop :=
| sts_said u c other : dict_said (flat_map site_units its) u -> dict_said (flat_map site_coords its) c -> merged (flat_map site_lattice its) other ->
    sites_said its (named "units" u :: named "coords" c :: other).

(** ** The magres block *)
Inductive res_item := RUnits (k v : list ascii) | RTensor (name : list ascii) (a : atom) (ns : list num) | RPair (name : list ascii) (a b : atom) (ns : list num).
Definition tensor_words : list string := ["ms"; "efg"; "efg_local"; "efg_nonlocal"]%string.
Definition tensor_name (w : list ascii) : Prop := In w (map text_of tensor_words).
(** Indices that fill their column are written together with the species. *)
Definition index_width (ver : Z) : nat := if (ver <? 22)%Z then 3 else 5.
Inductive res_row (ver : Z) : list ascii -> option res_item -> Prop :=
| rr_units l w k v : begins "units" l -> cut nonblank [w; k; v] l -> res_row ver l (Some (RUnits k v))
| rr_tensor l w sp ds ns : ~ begins "units" l -> tensor_name w -> cut nonblank (w :: sp :: write_digits ds :: map write_num ns) l -> ds <> [] -> numbers_ok ns ->
    res_row ver l (Some (RTensor w (sp, decimal ds) ns))
| rr_joined l w sp ds n ns : ~ begins "units" l -> tensor_name w -> cut nonblank (w :: (sp ++ write_digits ds) :: map write_num (n :: ns)) l ->
    length ds = index_width ver -> ~ is_int n -> numbers_ok (n :: ns) -> res_row ver l (Some (RTensor w (sp, decimal ds) (n :: ns)))
| rr_pair l w sa da sb db ns : ~ begins "units" l -> ~ tensor_name w -> begins "isc" w ->
    cut nonblank (w :: sa :: write_digits da :: sb :: write_digits db :: map write_num ns) l -> da <> [] -> db <> [] -> numbers_ok ns ->
    res_row ver l (Some (RPair w (sa, decimal da) (sb, decimal db) ns))
| rr_other l w ws : ~ begins "units" l -> cut nonblank (w :: ws) l -> ~ tensor_name w -> ~ begins "isc" w -> res_row ver l None.
Definition res_name (it : res_item) : list ascii := match it with RUnits _ _ => text_of "units" | RTensor w _ _ => w | RPair w _ _ _ => w end.
Definition res_entry (it : res_item) : key * pyval :=
  match it with
  | RUnits k v => (KStr k, VStr v)
  | RTensor _ a ns => (atom_key a, floats ns)
  | RPair _ a b ns => (KTuple [atom_key a; atom_key b], floats ns)
  end.
Definition res_named (name : list ascii) (its : list res_item) : list (key * pyval) :=
  flat_map (fun it => if text_dec (res_name it) name then [res_entry it] else []) its.
Definition res_long : list (string * string) :=
  [("ms", "magnetic_resonance_shielding"); ("efg", "electric_field_gradient");
   ("efg_local", "local_electric_field_gradient"); ("efg_nonlocal", "nonlocal_electric_field_gradient");
   ("isc_fc", "j_coupling_fc"); ("isc_orbital_p", "j_coupling_orbital_p"); ("isc_orbital_d", "j_coupling_orbital_d");
   ("isc_spin", "j_coupling_spin"); ("isc", "j_coupling_k_total")]%string.
(** The entry [s] of the block: what is said under that name, or under its short name *)
Inductive res_has (its : list res_item) : list ascii -> pyval -> Prop :=
| rh_name s v : res_named s its <> [] -> dict_said (res_named s its) v -> res_has its s v
| rh_long short long v : In (short, long) res_long -> res_named (text_of short) its <> [] -> dict_said (res_named (text_of short) its) v ->
    res_has its (text_of long) v.
Record res_said (its : list res_item) (d : list (key * pyval)) : Prop := {
  rs_nodup : NoDup (map fst d);
  rs_sound : forall k v, In (k, v) d -> exists s, k = KStr s /\ res_has its s v;
  rs_complete : forall s v, res_has its s v -> ~ absent d (KStr s)
}.

(** ** The magres_old block *)
Inductive old_item := OValue (a : atom) (n : num) | OVector (a : atom) (ns : list num) | OProperty (a : atom) (k : list ascii) (n : num).
Definition key_name (w s : list ascii) : Prop := exists ws, cut letter_or_digit ws w /\ s = joined (text_of "_") (map lower ws).
Definition rule (l : list ascii) : Prop := exists n e, l = repeat "="%char (S n) ++ e /\ (e = [] \/ e = empty_line).
Definition tensor_start (l : list ascii) : Prop := mentions "TOTAL Shielding Tensor" l.
Definition plain (l : list ascii) : Prop := ~ tensor_start l /\ ~ rule l.
Inductive old_row : list ascii -> option old_item -> Prop :=
| or_blank l : blanks l \/ mentions "[" l -> old_row l None
| or_value l sp ds w n ws : ~ mentions "[" l -> cut nonblank (sp :: write_digits ds :: text_of "Eigenvalue" :: w :: write_num n :: ws) l -> ds <> [] -> numbers_ok [n] ->
    old_row l (Some (OValue (sp, decimal ds) n))
| or_vector l sp ds w ns : ~ mentions "[" l -> cut nonblank (sp :: write_digits ds :: text_of "Eigenvector" :: w :: map write_num ns) l -> ds <> [] -> numbers_ok ns ->
    old_row l (Some (OVector (sp, decimal ds) ns))
| or_property l sp ds w s n ws : ~ mentions "[" l -> cut nonblank (sp :: write_digits ds :: w :: write_num n :: ws) l -> mentions ":" w -> key_name w s ->
    ds <> [] -> numbers_ok [n] -> ~ In s (map text_of ["eigvenvalue"; "eigvenvector"]%string) ->
    old_row l (Some (OProperty (sp, decimal ds) s n))
| or_other l sp ds w ws : ~ mentions "[" l -> cut nonblank (sp :: write_digits ds :: w :: ws) l -> ~ mentions ":" w ->
    ~ In w (map text_of ["Eigenvalue"; "Eigenvector"]%string) -> ds <> [] -> old_row l None.
Definition old_atom (it : old_item) : atom := match it with OValue a _ => a | OVector a _ => a | OProperty a _ _ => a end.
(** Titles between rules are left out; a tensor ends at the second blank line. *)
Inductive old_rows : list (list ascii) -> list old_item -> list (list (list num)) -> Prop :=
| ors_nil : old_rows [] [] []
| ors_row l o ls its ts : plain l -> old_row l o -> old_rows ls its ts -> old_rows (l :: ls) (match o with Some it => it :: its | None => its end) ts
| ors_title l body l' ls its ts : ~ tensor_start l -> rule l -> Forall (fun x => ~ rule x) body -> rule l' -> old_rows ls its ts ->
    old_rows (l :: body ++ l' :: ls) its ts
| ors_tensor l body1 e1 body2 e2 rows ls its ts : tensor_start l -> Forall (fun x => ~ blanks x) (body1 ++ body2) -> blanks e1 -> blanks e2 ->
    Forall2 number_row (l :: body1 ++ e1 :: body2 ++ [e2]) rows -> old_rows ls its ts ->
    old_rows (l :: body1 ++ e1 :: body2 ++ e2 :: ls) its (some_numbers rows :: ts).
Definition same (a b : atom) : bool := same_atom (fst a) (snd a) (fst b) (snd b).
Definition old_sets (a : atom) (it : old_item) : list (key * pyval) :=
  match it with OProperty b k n => if same a b then [(KStr k, float_of n)] else [] | _ => [] end.
Definition old_lists (a : atom) (it : old_item) : list (key * pyval) :=
  match it with
  | OValue b n => if same a b then [named "eigvenvalue" (float_of n)] else []
  | OVector b ns => if same a b then [named "eigvenvector" (floats ns)] else []
  | _ => []
  end.
(** What is said of an atom with coordinates [v] *)
Definition old_atom_said (its : list old_item) (a : atom) (v : pyval) (w : pyval) : Prop :=
  exists d0 d, merged (named "coords" v :: flat_map (old_sets a) its) d0 /\ gathered d0 (flat_map (old_lists a) its) d /\ w = VDict true d.
Definition old_total (ts : list (list (list num))) : pyval :=
  match rev ts with [] => VNone | t :: _ => VList (map floats t) end.
(** The atoms with coordinates, in the order of these *)
Definition old_atoms_said (its : list old_item) (coords out : list (key * pyval)) : Prop :=
  Forall2 (fun kc ke => fst ke = fst kc /\ exists a, fst kc = atom_key a /\ old_atom_said its a (snd kc) (snd ke)) coords out.

(** ** Files *)
Definition opening (name l : list ascii) : Prop := exists a b, blanks a /\ blanks b /\ word name /\ l = a ++ text_of "[" ++ name ++ text_of "]" ++ b.
Definition closing (l : list ascii) : Prop := exists name a b, blanks a /\ blanks b /\ word name /\ l = a ++ text_of "[/" ++ name ++ text_of "]" ++ b.
Inductive magres_part :=
| PCalc (kvs : list (list ascii * list ascii)) | PAtoms (its : list site_item) | PRes (its : list res_item)
| POld (coords : list (key * pyval)) (its : list old_item) (ts : list (list (list num))).
Definition enclosed (name : list ascii) (l : list ascii) (body : list (list ascii)) (l' : list ascii) : Prop :=
  opening name l /\ Forall (fun x => ~ closing x) body /\ closing l'.
(** The lines of an item list, some lines saying nothing *)
Inductive lines_say {A} (row : list ascii -> option A -> Prop) : list (list ascii) -> list A -> Prop :=
| ls_nil : lines_say row [] []
| ls_cons l o ls its : row l o -> lines_say row ls its -> lines_say row (l :: ls) (match o with Some it => it :: its | None => its end).
(** [ver] is the version and [cs] the coordinates given before. *)
Inductive magres_parts : option Z -> option (list (key * pyval)) -> list (list ascii) -> list magres_part -> Prop :=
| mp_nil ver cs : magres_parts ver cs [] []
| mp_other ver cs l ls ps : (forall name, ~ opening name l) -> magres_parts ver cs ls ps -> magres_parts ver cs (l :: ls) ps
| mp_unknown ver cs name l body l' ls ps : enclosed name l body l' -> ~ In name (map text_of ["calculation"; "atoms"; "magres"; "magres_old"]%string) ->
    magres_parts ver cs ls ps -> magres_parts ver cs (l :: body ++ l' :: ls) ps
| mp_calc ver cs l body l' kvs v ls ps : enclosed (text_of "calculation") l body l' -> lines_say calc_row body kvs -> version_of kvs v ->
    magres_parts (Some v) cs ls ps -> magres_parts ver cs (l :: body ++ l' :: ls) (PCalc kvs :: ps)
| mp_atoms ver cs l body l' its c ls ps : enclosed (text_of "atoms") l body l' -> lines_say site_row body its -> merged (flat_map site_coords its) c ->
    magres_parts ver (Some c) ls ps -> magres_parts ver cs (l :: body ++ l' :: ls) (PAtoms its :: ps)
| mp_res ver cs l body l' its ls ps : enclosed (text_of "magres") l body l' -> lines_say (res_row ver) body its ->
    magres_parts (Some ver) cs ls ps -> magres_parts (Some ver) cs (l :: body ++ l' :: ls) (PRes its :: ps)
| mp_old ver c l body l' its ts ls ps : enclosed (text_of "magres_old") l body l' -> old_rows body its ts -> Forall (fun it => ~ absent c (atom_key (old_atom it))) its ->
    magres_parts ver (Some c) ls ps -> magres_parts ver (Some c) (l :: body ++ l' :: ls) (POld c its ts :: ps).
Inductive magres_said : magres_part -> list (key * pyval) -> Prop :=
| ms_calc kvs v : dict_said (map calc_entry kvs) v -> magres_said (PCalc kvs) [named "calc" v]
| ms_atoms its d : sites_said its d -> magres_said (PAtoms its) [named "atoms" (VDict false d)]
| ms_res its d : res_said its d -> magres_said (PRes its) [named "magres" (VDict true d)]
| ms_old coords its ts out : old_atoms_said its coords out ->
    magres_said (POld coords its ts) [named "total_shielding" (old_total ts); named "atom_info" (VDict false out)].
Definition magres_says (ps : list magres_part) (d : list (key * pyval)) : Prop :=
  exists ess, Forall2 magres_said ps ess /\ merged (concat ess) d.
