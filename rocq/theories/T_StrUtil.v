(** Property theorems C23-C25: text normalisation and comments. *)
From Verif Require Import PyBase Regex SpecLine SpecStr StrUtil NumProps StrUtilFacts.
Local Open Scope list_scope.
Local Open Scope nat_scope.

(** C23.  Every string has exactly one list of maximal blank-free runs (its
    words); [normalise_string] returns them joined by single spaces. *)
Theorem C23_normalise_string s :
  exists ws, cut nonblank ws s /\ (forall ws', cut nonblank ws' s -> ws' = ws) /\
    normalise_string s = joined ($" ") ws.
Proof. exact (normalise_string_words s). Qed.
Print Assumptions C23_normalise_string.

Theorem C23_idempotent s : normalise_string (normalise_string s) = normalise_string s.
Proof. exact (normalise_string_idem s). Qed.
Print Assumptions C23_idempotent.

Example C23_ex : normalise_string ($"  ab" ++ [tab; " "%char] ++ $"cd-e ") = $"ab cd-e".
Proof. vm_compute. reflexivity. Qed.

(** C24.  Every string has exactly one list of maximal letter-or-digit runs;
    [normalise_key] returns them, in lower case, joined by underscores... *)
Theorem C24_normalise_key s :
  exists ws, cut letter_or_digit ws s /\ (forall ws', cut letter_or_digit ws' s -> ws' = ws) /\
    normalise_key s = joined ($"_") (map lower ws).
Proof. exact (normalise_key_words s). Qed.
Print Assumptions C24_normalise_key.

(** ...so that only lower-case letters, digits and underscores remain... *)
Theorem C24_canonical s c : In c (normalise_key s) -> canonical_char c.
Proof. exact (normalise_key_canonical s c). Qed.
Print Assumptions C24_canonical.

(** ...and it is idempotent. *)
Theorem C24_idempotent s : normalise_key (normalise_key s) = normalise_key s.
Proof. exact (normalise_key_idem s). Qed.
Print Assumptions C24_idempotent.

Example C24_ex : normalise_key ($"_Total (Spin) density__") = $"total_spin_density".
Proof. vm_compute. reflexivity. Qed.

(** C25.  The lines kept, in order, are those the specification keeps... *)
Theorem C25_strip_initial ms ls : ms <> [] ->
  stripped (initial_drops ms) (initial_keeps ms) ls (strip_comments ms false ls).
Proof. exact (strip_initial_spec ms ls). Qed.
Print Assumptions C25_strip_initial.

Theorem C25_strip_inline ms ls : ms <> [] ->
  stripped (inline_drops ms) (inline_keeps ms) ls (strip_comments ms true ls).
Proof. exact (strip_inline_spec ms ls). Qed.
Print Assumptions C25_strip_inline.

(** ...and nothing else satisfies the specification. *)
Theorem C25_unique ms ls out out' :
  (stripped (initial_drops ms) (initial_keeps ms) ls out ->
   stripped (initial_drops ms) (initial_keeps ms) ls out' -> out = out') /\
  (stripped (inline_drops ms) (inline_keeps ms) ls out ->
   stripped (inline_drops ms) (inline_keeps ms) ls out' -> out = out').
Proof. split; [apply strip_initial_unique|apply strip_inline_unique]. Qed.
Print Assumptions C25_unique.

Example C25_ex : strip_comments [$"#"; $"!"] true [$"a ! b # c"; $" # d"; $"  "; $"e "] = [$"a"; $"e"] /\
  strip_comments [$"#"; $"!"] false [$"a ! b # c"; $" # d"; $"  "; $"e "] = [$"a ! b # c"; $"e"].
Proof. split; vm_compute; reflexivity. Qed.
