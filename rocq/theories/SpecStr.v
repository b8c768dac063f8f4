(** Specification of text normalisation and comment stripping. *)
From Coq Require Import Ascii String List NArith.
From Verif Require Import SpecLine.
Import ListNotations.
Open Scope list_scope.

(** [cut P ws s]: the maximal runs of characters satisfying [P] in [s] are [ws]. *)
Inductive cut (P : ascii -> Prop) : list (list ascii) -> list ascii -> Prop :=
| cut_nil g : (forall c, In c g -> ~ P c) -> cut P [] g
| cut_cons g w s ws :
    (forall c, In c g -> ~ P c) -> w <> [] -> (forall c, In c w -> P c) ->
    (forall c t, s = c :: t -> ~ P c) -> cut P ws s ->
    cut P (w :: ws) (g ++ w ++ s).

Definition nonblank (c : ascii) : Prop := ~ blank c.
Definition letter_or_digit (c : ascii) : Prop :=
  (48 <= N_of_ascii c <= 57)%N \/ (65 <= N_of_ascii c <= 90)%N \/ (97 <= N_of_ascii c <= 122)%N.
Definition canonical_char (c : ascii) : Prop :=
  c = "_"%char \/ (48 <= N_of_ascii c <= 57)%N \/ (97 <= N_of_ascii c <= 122)%N.

(** [w1 sep w2 sep ... wn] *)
Fixpoint joined (sep : list ascii) (ws : list (list ascii)) : list ascii :=
  match ws with
  | [] => []
  | w :: ws' => match ws' with [] => w | _ => w ++ sep ++ joined sep ws' end
  end.

(** ** Comments.  [ms] are the comment markers. *)
Definition comment_line (ms : list (list ascii)) (l : list ascii) : Prop :=
  exists w m rest, blanks w /\ In m ms /\ l = w ++ m ++ rest.

(** [h] is what precedes the first marker of [l] (all of [l] if there is none). *)
Definition before_marker (ms : list (list ascii)) (l h : list ascii) : Prop :=
  ((exists m rest, In m ms /\ l = h ++ m ++ rest) /\
   forall h' m rest, In m ms -> l = h' ++ m ++ rest -> length h <= length h')
  \/ (l = h /\ forall h' m rest, In m ms -> l <> h' ++ m ++ rest).

(** [o] is [l] without its trailing blanks. *)
Definition right_stripped (l o : list ascii) : Prop :=
  exists b, l = o ++ b /\ blanks b /\ forall t c, o = t ++ [c] -> ~ blank c.

(** Stripping a list of lines, given which lines are dropped and what is kept of
    the others. *)
Inductive stripped (drops : list ascii -> Prop) (keeps : list ascii -> list ascii -> Prop)
  : list (list ascii) -> list (list ascii) -> Prop :=
| st_nil : stripped drops keeps [] []
| st_drop l ls out : drops l -> stripped drops keeps ls out -> stripped drops keeps (l :: ls) out
| st_keep l o ls out : keeps l o -> stripped drops keeps ls out -> stripped drops keeps (l :: ls) (o :: out).

Definition initial_drops ms l := comment_line ms l \/ blanks l.
Definition initial_keeps ms l o := ~ comment_line ms l /\ o <> [] /\ right_stripped l o.
Definition inline_drops ms l := exists h, before_marker ms l h /\ blanks h.
Definition inline_keeps ms l o := exists h, before_marker ms l h /\ o <> [] /\ right_stripped h o.
