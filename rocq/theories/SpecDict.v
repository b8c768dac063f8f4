(** Specification of the dictionary helpers. *)
From Coq Require Import Ascii String List ZArith QArith.
From Verif Require Import PyBase PyVal.
Import ListNotations.
Open Scope list_scope.

(** ** Leaves of nested data *)
Definition container (v : pyval) : Prop :=
  (exists l, v = VTuple l) \/ (exists l, v = VList l) \/ (exists d its, v = VDict d its).

Inductive step := Field (k : key) | Index (n : nat).

(** [at_path v p x]: following [p] from [v] leads to the leaf [x]. *)
Inductive at_path : pyval -> list step -> pyval -> Prop :=
| at_leaf v : ~ container v -> at_path v [] v
| at_field d its k v p x : In (k, v) its -> at_path v p x -> at_path (VDict d its) (Field k :: p) x
| at_list l n v p x : nth_error l n = Some v -> at_path v p x -> at_path (VList l) (Index n :: p) x
| at_tuple l n v p x : nth_error l n = Some v -> at_path v p x -> at_path (VTuple l) (Index n :: p) x.

(** The text of the steps after the first, each preceded by a separator; from the
    first sequence index on the separator is "_". *)
Fixpoint rest_text (text : key -> list ascii) (sep : list ascii) (p : list step) : list ascii :=
  match p with
  | [] => []
  | Field k :: p' => sep ++ text k ++ rest_text text sep p'
  | Index n :: p' => $"_" ++ str_of_Z (Z.of_nat n) ++ rest_text text ($"_") p'
  end.
(** The flattened key of a path from a dictionary: the key itself for a leaf of
    that dictionary, otherwise the joined text. *)
Definition path_key (text : key -> list ascii) (sep : list ascii) (p : list step) : option key :=
  match p with
  | [Field k] => Some k
  | Field k :: p' => Some (KStr (text k ++ rest_text text sep p'))
  | _ => None
  end.

(** Every dictionary inside [v] has distinct keys. *)
Inductive well_keyed : pyval -> Prop :=
| wk_leaf v : ~ container v -> well_keyed v
| wk_dict d its : NoDup (map fst its) -> (forall k v, In (k, v) its -> well_keyed v) -> well_keyed (VDict d its)
| wk_list l : (forall v, In v l -> well_keyed v) -> well_keyed (VList l)
| wk_tuple l : (forall v, In v l -> well_keyed v) -> well_keyed (VTuple l).

(** Keys Python treats as false. *)
Definition zero_float (f : float) : Prop :=
  match f with
  | FQ q => Qnum q = 0%Z
  | FBits b => b = [] \/ exists c z, b = c :: z /\ (c = ascii_of_nat 0 \/ c = ascii_of_nat 128) /\ Forall (eq (ascii_of_nat 0)) z
  end.
Definition falsy (k : key) : Prop :=
  k = KNone \/ k = KBool false \/ k = KInt 0 \/ k = KStr [] \/ k = KTuple [] \/ exists f, k = KFloat f /\ zero_float f.

(** ** JSON *)
Definition scalar_key (k : key) : Prop := forall l, k <> KTuple l.
Inductive json_ready : pyval -> Prop :=
| jr_none : json_ready VNone
| jr_bool b : json_ready (VBool b)
| jr_int z : json_ready (VInt z)
| jr_float f : json_ready (VFloat f)
| jr_str s : json_ready (VStr s)
| jr_tuple l : (forall v, In v l -> json_ready v) -> json_ready (VTuple l)
| jr_dict its : NoDup (map fst its) -> (forall k v, In (k, v) its -> scalar_key k /\ json_ready v) ->
    json_ready (VDict false its).

(** Keys occurring in the parsed data: scalars, (species, index)-like tuples of
    scalars, and tuples of such tuples. *)
Inductive known_key : key -> Prop :=
| kk_scalar k : scalar_key k -> known_key k
| kk_tuple k l : scalar_key k -> known_key (KTuple (k :: l))
| kk_nested l : l <> [] -> (forall k, In k l -> exists m, k = KTuple m) -> known_key (KTuple l).
Inductive jsonable : pyval -> Prop :=
| ja_none : jsonable VNone
| ja_bool b : jsonable (VBool b)
| ja_int z : jsonable (VInt z)
| ja_float f : jsonable (VFloat f)
| ja_complex a b : jsonable (VComplex a b)
| ja_str s : jsonable (VStr s)
| ja_tuple l : (forall v, In v l -> jsonable v) -> jsonable (VTuple l)
| ja_list l : (forall v, In v l -> jsonable v) -> jsonable (VList l)
| ja_dict d its : (forall k v, In (k, v) its -> known_key k /\ jsonable v) -> jsonable (VDict d its).

(** What the data becomes: sequences become tuples, a complex number becomes a
    two-entry dictionary, a dictionary keeps its entries in order with converted
    keys and values, a later entry replacing an earlier one of the same key. *)
Fixpoint joined_by_underscore (ws : list (list ascii)) : list ascii :=
  match ws with [] => [] | [w] => w | w :: ws' => w ++ "_"%char :: joined_by_underscore ws' end.
Inductive key_image (text : key -> list ascii) : key -> key -> Prop :=
| ki_scalar k : scalar_key k -> key_image text k k
| ki_tuple k l : scalar_key k -> key_image text (KTuple (k :: l)) (KStr (joined_by_underscore (map text (k :: l))))
| ki_nested ls : ls <> [] -> key_image text (KTuple (map KTuple ls)) (KStr (joined_by_underscore (map text (concat ls)))).
(** [merged its out]: writing the entries [its] one after the other gives [out]. *)
Inductive merged {K V} : list (K * V) -> list (K * V) -> Prop :=
| mg_nil : merged [] []
| mg_new its out k v : merged its out -> ~ In k (map fst out) -> merged (its ++ [(k, v)]) (out ++ [(k, v)])
| mg_over its a k v0 b v : merged its (a ++ (k, v0) :: b) -> ~ In k (map fst a) ->
    merged (its ++ [(k, v)]) (a ++ (k, v) :: b).
Inductive json_image (text : key -> list ascii) : pyval -> pyval -> Prop :=
| ji_same v : (forall a b, v <> VComplex a b) -> ~ container v -> json_image text v v
| ji_complex a b : json_image text (VComplex a b)
    (VDict false [(KStr ($"real"), VFloat a); (KStr ($"imag"), VFloat b)])
| ji_tuple l l' : Forall2 (json_image text) l l' -> json_image text (VTuple l) (VTuple l')
| ji_list l l' : Forall2 (json_image text) l l' -> json_image text (VList l) (VTuple l')
| ji_dict d its its' out :
    Forall2 (fun kv kv' => key_image text (fst kv) (fst kv') /\ json_image text (snd kv) (snd kv')) its its' ->
    merged its' out -> json_image text (VDict d its) (VDict false out).

(** Keys of per-atom and per-bond tables. *)
Definition atom_key (a : list ascii * Z) : key := KTuple [KStr (fst a); KInt (snd a)].
Definition bond_key (b : (list ascii * Z) * (list ascii * Z)) : key :=
  KTuple [atom_key (fst b); atom_key (snd b)].
Definition atom_text (a : list ascii * Z) : list ascii := fst a ++ "_"%char :: str_of_Z (snd a).

(** ** YAML *)
Inductive no_tuple : pyval -> Prop :=
| nt_leaf v : ~ container v -> no_tuple v
| nt_list l : (forall v, In v l -> no_tuple v) -> no_tuple (VList l)
| nt_dict its : (forall k v, In (k, v) its -> no_tuple v) -> no_tuple (VDict false its).
(** The same data with tuples replaced by lists and defaultdicts by dicts. *)
Inductive yaml_image : pyval -> pyval -> Prop :=
| yi_same v : ~ container v -> yaml_image v v
| yi_tuple l l' : Forall2 yaml_image l l' -> yaml_image (VTuple l) (VList l')
| yi_list l l' : Forall2 yaml_image l l' -> yaml_image (VList l) (VList l')
| yi_dict d its its' :
    Forall2 (fun kv kv' => fst kv = fst kv' /\ yaml_image (snd kv) (snd kv')) its its' ->
    yaml_image (VDict d its) (VDict false its').

(** ** Dictionaries as finite maps *)
Definition entry {K V} (d : list (K * V)) (k : K) (v : V) : Prop := In (k, v) d.
Definition absent {K V} (d : list (K * V)) (k : K) : Prop := ~ In k (map fst d).
(** The values of [k] in the rows that have it, in row order. *)
Inductive column {V} (k : key) : list (list (key * V)) -> list V -> Prop :=
| col_nil : column k [] []
| col_has row rows v vs : entry row k v -> column k rows vs -> column k (row :: rows) (v :: vs)
| col_skip row rows vs : absent row k -> column k rows vs -> column k (row :: rows) vs.
