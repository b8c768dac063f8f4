(** Python prelude: results with exceptions, ASCII strings and the string
    methods used by castep_outputs, insertion-ordered dictionaries.

    Nothing in this file models a particular file of /repo; it models the
    built-in operations of CPython that the code calls.  Strings are lists of
    8-bit characters with the character classes of ASCII (see DESIGN.md). *)
From Coq Require Export Ascii String.
From Coq Require Export ZArith NArith QArith Qreduction Bool Arith Lia List.
From Coq Require Import ZifyBool ZifyNat ZifyN.
Export ListNotations.
Open Scope list_scope.
Open Scope nat_scope.

(** ** Exceptions as values *)
Inductive exn : Set :=
| StopIteration | ValueError | KeyError | IndexError | TypeError | OSError
| AttributeError | NotImplementedErr | ImportError | ZeroDivisionError
| StructError | UnicodeDecodeError | UnboundLocalError | FileNotFoundError | OverflowError
| RuntimeError | AssertionError | ReError
| OutOfFuel.   (* not a Python exception: a fuelled loop ran out *)

Inductive result (A : Type) : Type := Ok (a : A) | Err (e : exn).
Arguments Ok {A} a.
Arguments Err {A} e.

Definition bind {A B} (r : result A) (f : A -> result B) : result B :=
  match r with Ok a => f a | Err e => Err e end.
Notation "x <- e ;; k" := (bind e (fun x => k))
  (at level 61, e at next level, right associativity).
Notation "' p <- e ;; k" := (bind e (fun p => k))
  (at level 61, p pattern, e at next level, right associativity).

Definition rmap {A B} (f : A -> B) (r : result A) : result B :=
  match r with Ok a => Ok (f a) | Err e => Err e end.

(** [[f x for x in l]] where [f] may raise: the first exception wins. *)
Definition mapM {A B} (f : A -> result B) : list A -> result (list B) :=
  fix go (l : list A) : result (list B) :=
  match l with
  | [] => Ok []
  | x :: l' => y <- f x ;; ys <- go l' ;; Ok (y :: ys)
  end.

(** [for x in l: acc = f acc x] where [f] may raise. *)
Fixpoint foldM {A B} (f : B -> A -> result B) (l : list A) (b : B) : result B :=
  match l with
  | [] => Ok b
  | x :: l' => b' <- f b x ;; foldM f l' b'
  end.

(** ** Characters and strings *)
Notation str := (list ascii).
Notation "$ s" := (list_ascii_of_string s%string) (at level 1, format "$ s").

Definition ord (c : ascii) : N := N_of_ascii c.
Definition in_range (lo hi : N) (c : ascii) : bool := (lo <=? ord c)%N && (ord c <=? hi)%N.

(** [str.isspace] / [\s] on ASCII: TAB..CR, FS..US, SPACE. *)
Definition is_space (c : ascii) : bool :=
  in_range 9 13 c || in_range 28 32 c.
Definition is_digit (c : ascii) : bool := in_range 48 57 c.
Definition is_upper (c : ascii) : bool := in_range 65 90 c.
Definition is_lower (c : ascii) : bool := in_range 97 122 c.
Definition is_alpha (c : ascii) : bool := is_upper c || is_lower c.
Definition is_alnum (c : ascii) : bool := is_alpha c || is_digit c.
(** [\w] on ASCII. *)
Definition is_word (c : ascii) : bool := is_alnum c || Ascii.eqb c "_".

Definition lower_c (c : ascii) : ascii :=
  if is_upper c then ascii_of_N (ord c + 32) else c.
Definition upper_c (c : ascii) : ascii :=
  if is_lower c then ascii_of_N (ord c - 32) else c.
Definition lower (s : str) : str := map lower_c s.
Definition upper (s : str) : str := map upper_c s.

(** [str.title()] on ASCII: a letter following a letter is lower-cased,
    any other letter is upper-cased. *)
Fixpoint title_aux (prev_cased : bool) (s : str) : str :=
  match s with
  | [] => []
  | c :: s' => (if prev_cased then lower_c c else upper_c c) :: title_aux (is_alpha c) s'
  end.
Definition title (s : str) : str := title_aux false s.

Fixpoint str_eqb (a b : str) : bool :=
  match a, b with
  | [], [] => true
  | x :: a', y :: b' => Ascii.eqb x y && str_eqb a' b'
  | _, _ => false
  end.

Definition newline : ascii := "010".
Definition tab : ascii := "009".
Definition nl : str := [newline].

Definition chr_in (c : ascii) (l : str) : bool := existsb (Ascii.eqb c) l.

Fixpoint drop_while {A} (f : A -> bool) (s : list A) : list A :=
  match s with
  | [] => []
  | c :: s' => if f c then drop_while f s' else s
  end.
Fixpoint take_while {A} (f : A -> bool) (s : list A) : list A :=
  match s with
  | [] => []
  | c :: s' => if f c then c :: take_while f s' else []
  end.
Definition lstrip_by (f : ascii -> bool) (s : str) : str := drop_while f s.
Definition rstrip_by (f : ascii -> bool) (s : str) : str := rev (drop_while f (rev s)).
Definition strip_by (f : ascii -> bool) (s : str) : str := rstrip_by f (lstrip_by f s).
(** [str.strip()], [str.lstrip()], [str.rstrip()]. *)
Definition lstrip := lstrip_by is_space.
Definition rstrip := rstrip_by is_space.
Definition strip := strip_by is_space.

Definition isempty {A} (l : list A) : bool := match l with [] => true | _ => false end.

(** [str.split()]: maximal runs of non-whitespace. *)
Definition flush (cur : str) : list str := match cur with [] => [] | _ => [cur] end.
Fixpoint split_aux (cur : str) (s : str) : list str :=
  match s with
  | [] => flush cur
  | c :: s' => if is_space c then flush cur ++ split_aux [] s'
               else split_aux (cur ++ [c]) s'
  end.
Definition split (s : str) : list str := split_aux [] s.

(** [sep.join(l)]. *)
Fixpoint join (sep : str) (l : list str) : str :=
  match l with
  | [] => []
  | [x] => x
  | x :: l' => x ++ sep ++ join sep l'
  end.

(** [s.startswith(p)], and the remainder after the prefix. *)
Fixpoint strip_prefix (p s : str) : option str :=
  match p with
  | [] => Some s
  | c :: p' => match s with
               | [] => None
               | d :: s' => if Ascii.eqb c d then strip_prefix p' s' else None
               end
  end.
Definition startswith (p s : str) : bool :=
  match strip_prefix p s with Some _ => true | None => false end.

(** [p in s] for strings. *)
Fixpoint contains (p s : str) : bool :=
  startswith p s || match s with [] => false | _ :: s' => contains p s' end.

(** [str.isdigit()] (ASCII): non-empty and all digits. *)
Definition isdigit (s : str) : bool := negb (isempty s) && forallb is_digit s.

(** Text split into lines, each keeping its newline, as [readline] returns them. *)
Fixpoint take_line (s : str) : str * str :=
  match s with
  | [] => ([], [])
  | c :: s' => if Ascii.eqb c newline then ([c], s')
               else let (l, r) := take_line s' in (c :: l, r)
  end.

(** ** Numbers from text *)
Definition digit_val (c : ascii) : Z := Z.of_N (ord c) - 48.
Definition digits_val (s : str) : Z := fold_left (fun acc c => acc * 10 + digit_val c)%Z s 0%Z.

Definition split_sign (s : str) : bool * str :=   (* true: negative *)
  match s with
  | c :: s' => if Ascii.eqb c "-" then (true, s')
               else if Ascii.eqb c "+" then (false, s') else (false, s)
  | [] => (false, [])
  end.

(** [int(s)] for a string, base 10.  Simplification: underscores between
    digits are rejected (Python accepts them). *)
Definition py_int (s : str) : result Z :=
  let (neg, d) := split_sign (strip s) in
  if isdigit d then Ok (if neg then - digits_val d else digits_val d)%Z
  else Err ValueError.

(** [Fraction(s)] for a string: CPython's [_RATIONAL_FORMAT]
    [\A\s*[-+]?(?=\d|\.\d)\d*(?:(?:/\d+)?|(?:\.\d* )?(?:E[-+]?\d+)?)\s*\Z],
    followed by reduction to lowest terms.  Simplification: underscores between
    digits are rejected. *)
Definition ten_to (n : nat) : Z := (10 ^ Z.of_nat n)%Z.

Definition mkfrac (num : Z) (den : Z) : Q := Qred (num # Z.to_pos den).

Definition is_e (c : ascii) : bool := Ascii.eqb c "e" || Ascii.eqb c "E".

Definition frac_exp (s : str) : option (bool * str) :=  (* sign, digits *)
  match s with
  | [] => Some (false, ["0"%char])
  | c :: s' => if is_e c
               then let (neg, d) := split_sign s' in
                    if isdigit d then Some (neg, d) else None
               else None
  end.

Definition py_fraction (s : str) : result Q :=
  let (neg, body) := split_sign (strip s) in
  let num := take_while is_digit body in
  let rest := drop_while is_digit body in
  let sg (z : Z) := if neg then (- z)%Z else z in
  match rest with
  | c :: rest' =>
      if Ascii.eqb c "/" then
        if negb (isempty num) && isdigit rest' then
          if (digits_val rest' =? 0)%Z then Err ZeroDivisionError
          else Ok (mkfrac (sg (digits_val num)) (digits_val rest'))
        else Err ValueError
      else
        let dec := if Ascii.eqb c "." then take_while is_digit rest' else [] in
        let rest2 := if Ascii.eqb c "." then drop_while is_digit rest' else rest in
        if isempty num && isempty dec then Err ValueError else
        match frac_exp rest2 with
        | None => Err ValueError
        | Some (eneg, ed) =>
            let n := digits_val (num ++ dec) in
            let e := Z.to_nat (digits_val ed) in
            if eneg then Ok (mkfrac (sg n) (ten_to (length dec) * ten_to e))
            else Ok (mkfrac (sg n * ten_to e) (ten_to (length dec)))
        end
  | [] => if isempty num then Err ValueError
          else Ok (mkfrac (sg (digits_val num)) 1)
  end.

(** [float(Fraction(s))].  The float is represented by the exact rational (not
    rounded); values that round beyond the binary64 range raise OverflowError
    as CPython's integer true division does. *)
Definition float_limit : Z := (2 ^ 1024 - 2 ^ 970)%Z.
Definition py_float (s : str) : result Q :=
  q <- py_fraction s ;;
  if (float_limit * Zpos (Qden q) <=? Z.abs (Qnum q))%Z then Err OverflowError else Ok q.

(** ** Decimal rendering of integers ([str(n)]) *)
Definition digit_chr (d : Z) : ascii := ascii_of_N (Z.to_N (48 + d)).
Fixpoint nat_digits (fuel : nat) (n : Z) : str :=
  match fuel with
  | O => []
  | S f => if (n <? 10)%Z then [digit_chr n]
           else nat_digits f (n / 10) ++ [digit_chr (n mod 10)]
  end.
Definition str_of_Z (z : Z) : str :=
  let d := nat_digits (S (Z.to_nat (Z.log2 (Z.abs z)))) (Z.abs z) in
  if (z <? 0)%Z then "-"%char :: d else d.

(** ** Dictionaries: association lists in insertion order *)
Section Dict.
  Context {K V : Type} (keqb : K -> K -> bool).

  Fixpoint dget (d : list (K * V)) (k : K) : option V :=
    match d with
    | [] => None
    | (k', v) :: d' => if keqb k' k then Some v else dget d' k
    end.

  (** [d[k] = v]: overwrite in place, or append at the end. *)
  Fixpoint dset (d : list (K * V)) (k : K) (v : V) : list (K * V) :=
    match d with
    | [] => [(k, v)]
    | (k', v') :: d' => if keqb k' k then (k', v) :: d' else (k', v') :: dset d' k v
    end.

  Fixpoint ddel (d : list (K * V)) (k : K) : list (K * V) :=
    match d with
    | [] => []
    | (k', v') :: d' => if keqb k' k then d' else (k', v') :: ddel d' k
    end.

  Definition dmem (d : list (K * V)) (k : K) : bool :=
    match dget d k with Some _ => true | None => false end.

  (** [dict(items)] / a dict comprehension / [d.update(items)]. *)
  Definition dupdate (d items : list (K * V)) : list (K * V) :=
    fold_left (fun acc kv => dset acc (fst kv) (snd kv)) items d.
  Definition dict_of (items : list (K * V)) : list (K * V) := dupdate [] items.

  (** [d[k]] with KeyError. *)
  Definition dgetE (d : list (K * V)) (k : K) : result V :=
    match dget d k with Some v => Ok v | None => Err KeyError end.
End Dict.

Definition keys {K V} (d : list (K * V)) : list K := map fst d.
Definition vals {K V} (d : list (K * V)) : list V := map snd d.

(** [l[i]] for a non-negative index. *)
Definition nthE {A} (l : list A) (i : nat) : result A :=
  match nth_error l i with Some x => Ok x | None => Err IndexError end.
