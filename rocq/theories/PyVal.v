(** Dynamic Python values, as produced by the parsers and consumed by the
    generic helpers. *)
From Verif Require Import PyBase.
Local Open Scope list_scope.

(** A float is either the exact rational denoted by its source text
    ([FQ], in lowest terms), or the 8 bytes of a binary64 read from a binary
    file ([FBits], big-endian); rounding is not modelled. *)
Inductive float := FQ (q : Q) | FBits (b : list ascii).

(** Dictionary keys: hashable values. *)
Inductive key :=
| KNone | KBool (b : bool) | KInt (z : Z) | KFloat (f : float) | KStr (s : str)
| KTuple (l : list key).

Inductive pyval :=
| VNone
| VBool (b : bool)
| VInt (z : Z)
| VFloat (f : float)
| VComplex (re im : float)
| VStr (s : str)
| VBytes (b : list ascii)
| VTuple (l : list pyval)
| VList (l : list pyval)
| VDict (is_default : bool) (items : list (key * pyval)).   (* dict / defaultdict *)

(** Induction through the nested lists. *)
Section Ind.
  Variable P : pyval -> Prop.
  Hypothesis HNone : P VNone.
  Hypothesis HBool : forall b, P (VBool b).
  Hypothesis HInt : forall z, P (VInt z).
  Hypothesis HFloat : forall f, P (VFloat f).
  Hypothesis HComplex : forall a b, P (VComplex a b).
  Hypothesis HStr : forall s, P (VStr s).
  Hypothesis HBytes : forall s, P (VBytes s).
  Hypothesis HTuple : forall l, Forall P l -> P (VTuple l).
  Hypothesis HList : forall l, Forall P l -> P (VList l).
  Hypothesis HDict : forall d items, Forall (fun kv => P (snd kv)) items -> P (VDict d items).
  Fixpoint pyval_ind' (v : pyval) : P v :=
    match v with
    | VNone => HNone
    | VBool b => HBool b
    | VInt z => HInt z
    | VFloat f => HFloat f
    | VComplex a b => HComplex a b
    | VStr s => HStr s
    | VBytes s => HBytes s
    | VTuple l => HTuple l ((fix go l : Forall P l :=
        match l with [] => Forall_nil _ | x :: l' => Forall_cons _ (pyval_ind' x) (go l') end) l)
    | VList l => HList l ((fix go l : Forall P l :=
        match l with [] => Forall_nil _ | x :: l' => Forall_cons _ (pyval_ind' x) (go l') end) l)
    | VDict d items => HDict d items ((fix go l : Forall (fun kv => P (snd kv)) l :=
        match l with [] => Forall_nil _ | x :: l' => Forall_cons _ (pyval_ind' (snd x)) (go l') end) items)
    end.
End Ind.

Section KInd.
  Variable P : key -> Prop.
  Hypothesis HNone : P KNone.
  Hypothesis HBool : forall b, P (KBool b).
  Hypothesis HInt : forall z, P (KInt z).
  Hypothesis HFloat : forall f, P (KFloat f).
  Hypothesis HStr : forall s, P (KStr s).
  Hypothesis HTuple : forall l, Forall P l -> P (KTuple l).
  Fixpoint key_ind' (k : key) : P k :=
    match k with
    | KNone => HNone
    | KBool b => HBool b
    | KInt z => HInt z
    | KFloat f => HFloat f
    | KStr s => HStr s
    | KTuple l => HTuple l ((fix go l : Forall P l :=
        match l with [] => Forall_nil _ | x :: l' => Forall_cons _ (key_ind' x) (go l') end) l)
    end.
End KInd.

Definition Q_eqb (a b : Q) : bool := (Qnum a =? Qnum b)%Z && (Zpos (Qden a) =? Zpos (Qden b))%Z.
Definition float_eqb (a b : float) : bool :=
  match a, b with
  | FQ x, FQ y => Q_eqb x y
  | FBits x, FBits y => str_eqb x y
  | _, _ => false
  end.
(** Structural comparison of keys (see DESIGN.md: [1 == 1.0 == True] is not modelled). *)
Fixpoint key_eqb (a b : key) : bool :=
  match a, b with
  | KNone, KNone => true
  | KBool x, KBool y => Bool.eqb x y
  | KInt x, KInt y => (x =? y)%Z
  | KFloat x, KFloat y => float_eqb x y
  | KStr x, KStr y => str_eqb x y
  | KTuple x, KTuple y =>
      (fix go (x y : list key) : bool :=
         match x, y with
         | [], [] => true
         | a :: x', b :: y' => key_eqb a b && go x' y'
         | _, _ => false
         end) x y
  | _, _ => false
  end.
