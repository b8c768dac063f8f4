(** Specification of type detection and conversion, independent of the model. *)
From Coq Require Import Ascii String List NArith ZArith QArith Qreduction.
From Verif Require Import PyBase PyVal NumSpec SpecLine TypeConv.
Import ListNotations.
Open Scope list_scope.

(** [s] begins with a number written with a point or an exponent. *)
Definition float_prefix (s : list ascii) : Prop :=
  exists n rest, num_ok n /\ (n_frac n <> None \/ n_exp n <> None) /\ s = write_num n ++ rest.
(** [s] begins with an unsigned ratio (its denominator may carry a sign) that is
    not continued by a word character or a point. *)
Definition word_or_point (c : ascii) : Prop :=
  c = "."%char \/ c = "_"%char \/ (48 <= N_of_ascii c <= 57)%N \/ (65 <= N_of_ascii c <= 90)%N \/
  (97 <= N_of_ascii c <= 122)%N.
Definition ratio_prefix (s : list ascii) : Prop :=
  exists a sg b rest, a <> [] /\ b <> [] /\
    s = write_digits a ++ "/"%char :: write_sign sg ++ write_digits b ++ rest /\
    forall c t, rest = c :: t -> ~ word_or_point c.
(** [s] begins with an integer literal. *)
Definition int_prefix (s : list ascii) : Prop :=
  exists sg d rest, d <> [] /\ s = write_sign sg ++ write_digits d ++ rest.
(** [s] is a logical, ignoring case. *)
Definition one_of (ws : list string) (s : list ascii) : Prop :=
  exists w, In w ws /\ lower s = list_ascii_of_string w.
Definition is_logical := one_of ["t"; "true"; "f"; "false"]%string.
Definition is_true_word := one_of ["t"; "true"; "1"]%string.

(** What a string is read as, per type. *)
Inductive reads : ptype -> list ascii -> pyval -> Prop :=
| reads_int a n b : blanks a -> blanks b -> num_wf n -> is_int n ->
    reads TInt (a ++ write_num n ++ b) (VInt (int_value n))
| reads_float s q : denotes s q -> fits q -> reads TFloat s (VFloat (FQ (Qred q)))
| reads_true s : is_true_word s -> reads TBool s (VBool true)
| reads_false s : ~ is_true_word s -> reads TBool s (VBool false)
| reads_str s : reads TStr s (VStr s).

Definition scalar (v : pyval) : Prop :=
  match v with
  | VNone | VBool _ | VInt _ | VFloat _ | VComplex _ _ => True
  | _ => False
  end.

(** [v'] is [v] with every string leaf read as [t]: mappings keep their keys in
    order, sequences become tuples, other scalars are kept. *)
Inductive converted (t : ptype) : pyval -> pyval -> Prop :=
| cv_str s v : reads t s v -> converted t (VStr s) v
| cv_dict dd items items' :
    Forall2 (fun a b => fst a = fst b /\ converted t (snd a) (snd b)) items items' ->
    converted t (VDict dd items) (VDict false items')
| cv_tuple l l' : Forall2 (converted t) l l' -> converted t (VTuple l) (VTuple l')
| cv_list l l' : Forall2 (converted t) l l' -> converted t (VList l) (VTuple l')
| cv_bytes b : converted t (VBytes b) (VTuple (map (fun c => VInt (Z.of_N (N_of_ascii c))) b))
| cv_scalar v : scalar v -> converted t v v.

(** The string leaves of a value, left to right. *)
Inductive leaf (s : list ascii) : pyval -> Prop :=
| leaf_str : leaf s (VStr s)
| leaf_dict dd items k v : In (k, v) items -> leaf s v -> leaf s (VDict dd items)
| leaf_tuple l v : In v l -> leaf s v -> leaf s (VTuple l)
| leaf_list l v : In v l -> leaf s v -> leaf s (VList l).
