(** Theorems about the names of atoms (C84). *)
From Coq Require Import List Ascii String NArith Lia.
From Verif Require Import PyBase PyVal NumProps NumSpec SpecLine SpecStr SpecTable SpecBands SpecMd SpecCastep SpecLabels Labels LabelFacts.
Import ListNotations.
Local Open Scope list_scope.

(** The parts of every name are found, whatever follows the name. *)
Theorem C84_parts s d : atom_text s d -> get_atom_parts s = Ok d.
Proof. exact (atom_parts_spec s d). Qed.
Print Assumptions C84_parts.
Theorem C84_no_symbol s : (forall c t, s = c :: t -> ~ capital c) -> get_atom_parts s = Err AttributeError.
Proof. exact (atom_parts_none s). Qed.
Print Assumptions C84_no_symbol.
(** A label is wished for every name; there is one for none: the index is missing. *)
Theorem C84_from_str_refuted s : exists e, from_str s = Err e /\ (e = AttributeError \/ e = TypeError).
Proof. exact (from_str_fails s). Qed.
Print Assumptions C84_from_str_refuted.

(** A label made of fields given by name, and the fields it is refused for *)
Theorem C84_label d sp ix tg lb : NoDup (map fst d) ->
  (forall k, In k (map fst d) -> In k (map name ["species"; "index"; "tag"; "label"]%string)) ->
  given d "species" sp -> given d "index" ix -> given_or_empty d "tag" tg -> given_or_empty d "label" lb ->
  label_of d = Ok (VTuple [sp; ix; tg; lb]).
Proof. exact (label_spec d sp ix tg lb). Qed.
Print Assumptions C84_label.
Theorem C84_label_refused d :
  (exists k, In k (map fst d) /\ ~ In k (map name ["species"; "index"; "tag"; "label"]%string)) \/
    ~ In (name "species") (map fst d) \/ ~ In (name "index") (map fst d) ->
  label_of d = Err TypeError.
Proof. exact (label_refused d). Qed.
Print Assumptions C84_label_refused.

Lemma sym_Ar : symbol ($"Ar").
Proof. exists "A"%char, ($"r"). repeat split; try (cbn; lia). constructor; [|constructor]. unfold small. cbn. lia. Qed.
Lemma tag_t : word ($"t1").
Proof. split; [discriminate|]. repeat (constructor; [unfold word_char; cbn; lia|]). constructor. Qed.
Example C84_ex : atom_text ($"Ar:t1  [ my one ]  7") [(name "species", VStr ($"Ar")); (name "tag", VStr ($"t1")); (name "label", VStr ($"my one"))].
Proof.
  apply (at_label ($"Ar") ($":t1") ($"  [ my one ]") ($"  7") [(name "tag", VStr ($"t1"))] [(name "label", VStr ($"my one"))]);
    [exact sym_Ar|exact (tt_some ($"t1") tag_t)|].
  apply (lt_some ($"  ") ($" my one ") ($"my one")).
  - apply blanks_iff. reflexivity.
  - discriminate.
  - cbn. intuition discriminate.
  - exact (TextParsersFacts.strip_trimmed ($" my one ")).
Qed.
Example C84_ex2 : get_atom_parts ($"Ar:t1 [ my one ] 7") = Ok [(name "species", VStr ($"Ar")); (name "tag", VStr ($"t1")); (name "label", VStr ($"my one"))].
Proof. vm_compute. reflexivity. Qed.
Example C84_ex3 : from_str ($"Ar:t1 [one]") = Err TypeError.
Proof. vm_compute. reflexivity. Qed.
Example C84_label_ex :
  let d := [(name "tag", VStr ($"t1")); (name "index", VInt 3); (name "species", VStr ($"Ar"))] in
  NoDup (map fst d) /\ (forall k, In k (map fst d) -> In k (map name ["species"; "index"; "tag"; "label"]%string)) /\
  given d "species" (VStr ($"Ar")) /\ given d "index" (VInt 3) /\ given_or_empty d "tag" (VStr ($"t1")) /\ given_or_empty d "label" (VStr []).
Proof.
  cbv zeta. split; [|split; [|split; [|split; [|split]]]].
  - repeat (constructor; [cbn; intuition discriminate|]). constructor.
  - cbn. intuition auto.
  - unfold given. cbn. auto.
  - unfold given. cbn. auto.
  - left. unfold given. cbn. auto.
  - right. split; [cbn; intuition discriminate|reflexivity].
Qed.
Example C84_label_refused_ex : ~ In (name "index") (map fst [(name "species", VStr ($"Ar"))]).
Proof. cbn. intuition discriminate. Qed.
