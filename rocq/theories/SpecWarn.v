(** Specification of warnings in .castep files, independent of the parser. *)
From Coq Require Import Ascii String List.
From Verif Require Import PyBase PyVal SpecStr SpecLine SpecTable SpecBands SpecCastep SpecCastepFile SpecCastepRun.
From Verif Require Import CastepFile.   (* only for the names of the filters *)
Import ListNotations.
Open Scope list_scope.

(** "   Warning: something", or "routine:   Warning - something"; [i] are the blanks before the
    word, which may be written in any case. *)
Definition warned (l i : list ascii) : Prop := exists p w r, blanks i /\ map lower_c w = text_of "warning" /\ l = p ++ i ++ w ++ r /\
  ((p = [] /\ ~ mentions "warning" (map lower_c r)) \/
   exists q, p = q ++ [":"%char] /\ q <> [] /\ ~ In ":"%char q /\ ~ mentions "warning" (map lower_c q)).
(** A line of text that is indented further than that. *)
Definition further (i l : list ascii) : Prop := ~ blanks l /\ exists c t, blank c /\ l = i ++ c :: t.
(** The lines of a warning, and its text *)
Definition warning (l : list ascii) (cs : list (list ascii)) (v : pyval) : Prop :=
  exists i w ws, warned l i /\ nothing_before "warning" l /\ Forall (further i) cs /\ trimmed l w /\ Forall2 trimmed cs ws /\
    v = VStr (joined (text_of " ") (w :: ws)).
Definition ends_warning (l x : list ascii) : Prop := exists i, warned l i /\ ~ further i x.

(** ** Files with warnings
    The line after a warning of several lines is read again, the line after a warning of one
    line is passed over whatever it says. *)
Inductive warns (F : list filt) : list (list ascii) -> list effect -> Prop :=
| wr_last ls es : pieces F ls es -> warns F ls es
| wr_off l ls es ls' es' i : ~ In F_SYS_INFO F -> pieces F ls es -> warned l i -> nothing_before "warning" l -> warns F ls' es' ->
    warns F (ls ++ l :: ls') (es ++ es')
| wr_end l cs v ls es : In F_SYS_INFO F -> pieces F ls es -> warning l cs v -> warns F (ls ++ l :: cs) (es ++ [Appends "warning" v])
| wr_more l cs v x ls es ls' es' : In F_SYS_INFO F -> pieces F ls es -> warning l cs v -> cs <> [] -> ends_warning l x -> warns F (x :: ls') es' ->
    warns F (ls ++ l :: cs ++ x :: ls') (es ++ Appends "warning" v :: es')
| wr_one l v x ls es ls' es' : In F_SYS_INFO F -> pieces F ls es -> warning l [] v -> ends_warning l x -> warns F ls' es' ->
    warns F (ls ++ l :: x :: ls') (es ++ Appends "warning" v :: es').
