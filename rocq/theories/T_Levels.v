(** Property theorems C95: the preset sets of filters. *)
From Verif Require Import PyBase CastepFile.
Local Open Scope list_scope.

(** [Filters.X in to_parse] is membership. *)
Theorem C95_membership F f : has F f = true <-> In f F.
Proof.
  unfold has. rewrite existsb_exists. split.
  - intros (x & I & E). assert (f = x) as -> by (destruct f, x; try discriminate E; reflexivity). exact I.
  - intros I. exists f. split; [exact I|now destruct f].
Qed.
Print Assumptions C95_membership.
Lemma leaves_out A B f : has A f = negb (has B f) -> (In f A <-> ~ In f B).
Proof. intros H. rewrite <- !C95_membership, H. now destruct (has B f). Qed.

(** C95.  What each preset set leaves out. *)
Theorem C95_presets f :
  (In f FULL <-> ~ In f [F_TEST_EXTRA_DATA]) /\
  (In f HIGH <-> ~ In f [F_TEST_EXTRA_DATA; F_SCF]) /\
  (In f MEDIUM <-> ~ In f [F_TEST_EXTRA_DATA; F_SCF; F_PSPOT; F_SYMMETRIES; F_SYS_INFO]) /\
  (In f LOW <-> ~ In f [F_TEST_EXTRA_DATA; F_SCF; F_PSPOT; F_SYMMETRIES; F_SYS_INFO; F_PARAMETERS; F_GEOM_OPT; F_MD; F_PHONON]) /\
  (In f TESTING <-> ~ In f [F_SCF; F_SYMMETRIES; F_SYS_INFO; F_PARAMETERS; F_DELTA_SCF; F_FINAL_CONFIG; F_MD_SUMMARY; F_POLARISATION; F_SPIN]).
Proof. repeat split; apply leaves_out; now destruct f. Qed.
Print Assumptions C95_presets.
(** The DeltaSCF report is kept by the lowest level, the SCF cycles not even by the high one. *)
Example C95_presets_ex : In F_DELTA_SCF LOW /\ ~ In F_SCF HIGH.
Proof. rewrite <- !C95_membership. split; [reflexivity|discriminate]. Qed.
