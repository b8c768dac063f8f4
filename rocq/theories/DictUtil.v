(** castep_outputs/utilities/utility.py: helpers on dictionaries and nested data. *)
From Verif Require Import PyBase PyVal.
Local Open Scope list_scope.
Local Open Scope nat_scope.

Notation dict := (list (key * pyval)).

(** [str(k)].  For floats and tuples the text is given by [ext] (their [repr] is
    not modelled). *)
Definition key_str (ext : key -> str) (k : key) : str :=
  match k with
  | KNone => $"None"
  | KBool true => $"True"
  | KBool false => $"False"
  | KInt z => str_of_Z z
  | KStr s => s
  | KFloat _ | KTuple _ => ext k
  end.
(** [bool(k)] *)
Definition zero_bits (b : list ascii) : bool :=
  match b with
  | x :: b' => (Ascii.eqb x (ascii_of_nat 0) || Ascii.eqb x (ascii_of_nat 128)) &&
               forallb (Ascii.eqb (ascii_of_nat 0)) b'
  | [] => true
  end.
Definition truthy (k : key) : bool :=
  match k with
  | KNone => false
  | KBool b => b
  | KInt z => negb (z =? 0)%Z
  | KFloat (FQ q) => negb (Qnum q =? 0)%Z
  | KFloat (FBits b) => negb (zero_bits b)
  | KStr s => negb (isempty s)
  | KTuple l => negb (isempty l)
  end.

(** ** flatten_dict, utility.py 320-331 *)
Section Flatten.
  Context (ext : key -> str).
  (** 323 *)
  Definition new_key (parent : key) (sep : str) (k : key) : key :=
    if truthy parent then KStr (key_str ext parent ++ sep ++ key_str ext k) else k.

  (** 324-330: what one entry [new_key: value] contributes to [items].  Only dict
      and defaultdict are MutableMappings here. *)
  Fixpoint flat_entry (sep : str) (nk : key) (v : pyval) {struct v} : dict :=
    match v with
    | VDict _ its =>
        dict_of key_eqb (flat_map (fun kv => flat_entry sep (new_key nk sep (fst kv)) (snd kv)) its)
    | VList l | VTuple l =>
        (fix go (i : nat) (l : list pyval) : dict :=
           match l with
           | [] => []
           | x :: l' =>
               dict_of key_eqb (flat_entry ($"_") (new_key nk ($"_") (KStr (str_of_Z (Z.of_nat i)))) x)
               ++ go (S i) l'
           end) 0 l
    | _ => [(nk, v)]
    end.
  (** 320-331 with explicit [parent_key] and [separator]. *)
  Definition flatten_from (its : dict) (parent : key) (sep : str) : dict :=
    dict_of key_eqb (flat_map (fun kv => flat_entry sep (new_key parent sep (fst kv)) (snd kv)) its).
  Definition flatten_dict (its : dict) (sep : str) : dict := flatten_from its (KStr []) sep.
End Flatten.

(** ** normalise, utility.py 224-232 *)
Inductive ptag := PNone | PBool | PInt | PFloat | PComplex | PStr | PBytes | PTuple | PList | PDict | PDefaultDict.
Definition type_of (v : pyval) : ptag :=
  match v with
  | VNone => PNone | VBool _ => PBool | VInt _ => PInt | VFloat _ => PFloat | VComplex _ _ => PComplex
  | VStr _ => PStr | VBytes _ => PBytes | VTuple _ => PTuple | VList _ => PList
  | VDict false _ => PDict | VDict true _ => PDefaultDict
  end.
Definition mapping := ptag -> option (pyval -> result pyval).
(** 229-230 *)
Definition apply_map (mp : mapping) (v : pyval) : result pyval :=
  match mp (type_of v) with Some f => f v | None => Ok v end.
(** 224-232; the keys of a dict being distinct, the comprehension of 227 keeps
    the items. *)
Fixpoint normalise (mp : mapping) (v : pyval) {struct v} : result pyval :=
  match v with
  | VTuple l | VList l => l' <- mapM (normalise mp) l ;; apply_map mp (VTuple l')
  | VDict _ its =>
      its' <- mapM (fun kv => rmap (pair (fst kv)) (normalise mp (snd kv))) its ;;
      apply_map mp (VDict false its')
  | _ => apply_map mp v
  end.

(** ** json_safe, utility.py 269-284 *)
Section Json.
  Context (ext : key -> str).
  (** [for y in x] over one element of a tuple key; a string iterates over its characters. *)
  Definition key_elems (k : key) : result (list str) :=
    match k with
    | KTuple l => Ok (map (key_str ext) l)
    | KStr s => Ok (map (fun c => [c]) s)
    | _ => Err TypeError
    end.
  (** 272-277 *)
  Definition json_key (k : key) : result key :=
    match k with
    | KTuple [] => Err IndexError
    | KTuple ((KTuple _ :: _) as l) => parts <- mapM key_elems l ;; Ok (KStr (join ($"_") (concat parts)))
    | KTuple l => Ok (KStr (join ($"_") (map (key_str ext) l)))
    | _ => Ok k
    end.
  Fixpoint json_safe (v : pyval) {struct v} : result pyval :=
    match v with
    | VDict _ its =>
        its' <- mapM (fun kv => k <- json_key (fst kv) ;; x <- json_safe (snd kv) ;; Ok (k, x)) its ;;
        Ok (VDict false (dict_of key_eqb its'))
    | VComplex a b => Ok (VDict false [(KStr ($"real"), VFloat a); (KStr ($"imag"), VFloat b)])
    | _ => Ok v
    end.
  (** castep_outputs_main.py 85: [{dict: json_safe, complex: json_safe}] *)
  Definition json_mapping : mapping := fun t =>
    match t with PDict | PComplex => Some json_safe | _ => None end.
End Json.
(** castep_outputs_main.py 87: [{tuple: list}] *)
Definition yaml_mapping : mapping := fun t =>
  match t with
  | PTuple => Some (fun v => match v with VTuple l => Ok (VList l) | _ => Err TypeError end)
  | _ => None
  end.

(** ** stack_dict, utility.py 345-346.  [dflt]: is [out_dict] a defaultdict(list)? *)
Definition stack_dict {V} (dflt : bool) (out : list (key * list V)) (row : list (key * V))
  : result (list (key * list V)) :=
  foldM (fun out kv =>
           match dget key_eqb out (fst kv) with
           | Some l => Ok (dset key_eqb out (fst kv) (l ++ [snd kv]))
           | None => if dflt then Ok (dset key_eqb out (fst kv) [snd kv]) else Err KeyError
           end) row out.

(** ** add_aliases, utility.py 384-391.  The result is ([in_dict] afterwards, the
    returned dictionary); with [inplace] they are the same object. *)
Section Aliases.
  Context {K V : Type} (keqb : K -> K -> bool).
  (** 387-390 when [out_dict] is a copy: lookups go to the original. *)
  Definition alias_copy (replace : bool) (orig : list (K * V)) (out : list (K * V)) (a : K * K)
    : result (list (K * V)) :=
    match dget keqb orig (fst a) with
    | None => Ok out
    | Some v =>
        let out := dset keqb out (snd a) v in
        if replace then if dmem keqb out (fst a) then Ok (ddel keqb out (fst a)) else Err KeyError
        else Ok out
    end.
  (** 387-390 when [out_dict is in_dict]. *)
  Definition alias_inplace (replace : bool) (out : list (K * V)) (a : K * K) : result (list (K * V)) :=
    match dget keqb out (fst a) with
    | None => Ok out
    | Some v =>
        let out := dset keqb out (snd a) v in
        if replace then if dmem keqb out (fst a) then Ok (ddel keqb out (fst a)) else Err KeyError
        else Ok out
    end.
  Definition add_aliases (in_dict : list (K * V)) (aliases : list (K * K)) (replace inplace : bool)
    : result (list (K * V) * list (K * V)) :=
    if inplace then rmap (fun d => (d, d)) (foldM (alias_inplace replace) aliases in_dict)
    else rmap (fun d => (in_dict, d)) (foldM (alias_copy replace in_dict) aliases in_dict).
End Aliases.

(** ** strip_nones, utility.py 140-146.  [order]: the order in which the set of
    selected keys happens to iterate. *)
Definition selected (data : dict) (include : option (list key)) (exclude : list key) : list key :=
  filter (fun k => negb (existsb (key_eqb k) exclude) &&
                   match include with None => true | Some inc => existsb (key_eqb k) inc end)
         (map fst data).
Definition strip_nones_in (order : list key) (data : dict) : result dict :=
  foldM (fun d k => v <- dgetE key_eqb d k ;;
                    match v with VNone => Ok (ddel key_eqb d k) | _ => Ok d end) order data.
(** The whole function, for a given iteration order of sets. *)
Definition strip_nones (iter : list key -> list key) (data : dict) (include : option (list key)) (exclude : list key)
  : result dict := strip_nones_in (iter (selected data include exclude)) data.

(** ** filter_underscore, utility.py 681-684 *)
Definition filter_underscore {V} (d : list (str * V)) : list (str * V) :=
  filter (fun kv => negb (startswith ($"_") (fst kv))) d.

(** ** atreg_to_index, utility.py 181-187, on a dictionary: the index pair and the
    dictionary afterwards. *)
Definition atreg_to_index (d : list (str * str)) (clear : bool)
  : result ((str * Z) * list (str * str)) :=
  spec <- dgetE str_eqb d ($"spec") ;;
  ind <- dgetE str_eqb d ($"index") ;;
  let d' := if clear then ddel str_eqb (ddel str_eqb d ($"spec")) ($"index") else d in
  i <- py_int ind ;;
  Ok ((spec, i), d').
