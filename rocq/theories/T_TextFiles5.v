(** Property theorem C75: .magres files. *)
From Verif Require Import PyBase PyFacts PyVal Regex NumSpec SpecLine SpecTable SpecStr SpecBands SpecDict DictUtil DictFacts SpecMd SpecCastep SpecFiles SpecFiles2 SpecFiles5 CastepRes StrUtil StrUtilFacts
  TypeConv Stream Header TextFiles MdFacts NumProps TextParsers TextParsersFacts HeaderFacts BandsFacts FileFacts FileParts FileParts4 FileParts5 ExampleTools T_TextFiles T_TextFiles2.
From Verif Require T_Castep.
Local Open Scope list_scope.
Local Open Scope nat_scope.

(** C75.  .magres files. *)
Theorem C75_magres ls ps : magres_parts None None ls ps -> exists d, parse_magres_file ls = Ok (VDict true d) /\ magres_says ps d.
Proof. exact (magres_exact ls ps). Qed.
Print Assumptions C75_magres.

Definition ex_calc : list str := lns ["calc_code CASTEP"; "calc_code_version  23.1"; "calc_code_hgversion 81dc23eb6+  LDA-fix "; "calc_comment"]%string.
Definition ex_atoms : list str :=
  lns ["units lattice Angstrom"; "lattice   3.5E+00   0.0E+00   1.0E-01"; "symmetry x,y,z"; "atom H       H   1   0.25E+00  0.5E+00  0.0E+00";
       "atom H       H   11111   0.5  0.5  0.5"]%string.
Definition ex_magres : list str :=
  lns ["units ms ppm"; "ms H    1   1.5E+01   -2.5E-02"; "ms H11111 1.0 2.0"; "isc_fc H    1 H    2 1.0 -2.0"; "sus 1.0"]%string.
Definition ex_old : list str :=
  lns ["============"; "Atom: H        1"; "============"; "H        1 Coordinates      0.000    0.000    0.000   A"; ""; "TOTAL Shielding Tensor"; "";
       "              15.9352     -0.0295     -0.0295"; "              -0.0295     15.9352     -0.0295"; "";
       "H        1 Eigenvalue  sigma_xx      15.9647 (ppm)"; "H        1 Eigenvector sigma_xx       0.3571     -0.8144      0.4573";
       "H        1 Eigenvalue  sigma_yy      16.0 (ppm)"; "H        1 Isotropic:       15.9352 (ppm)"]%string.
Definition ex_magres_file : list str :=
  ln "#$magres-abinitio-v1.0" :: (ln "[calculation]" :: ex_calc ++ ln "[/calculation]" ::
  (ln "[atoms]" :: ex_atoms ++ ln "[/atoms]" :: (ln "[magres]" :: ex_magres ++ ln " [/magres]" :: (ln "[other]" :: lns ["text"]%string ++ ln "[/other]" ::
  (ln "[magres_old]" :: ex_old ++ ln "[/magres_old]" :: []))))).
Definition ex_calc_kvs : list (str * str) :=
  map (fun p => ($(fst p), $(snd p))) [("code", "CASTEP"); ("code_version", "23.1"); ("code_hgversion", "81dc23eb6+  LDA-fix")]%string.
Definition ex_h (i : Z) : SpecFiles5.atom := ($"H", i).
Definition ex_sites : list site_item :=
  [SUnits ($"lattice") ($"Angstrom"); SLattice ($"lattice") (map rd ["3.5E+00"; "0.0E+00"; "1.0E-01"]);
   SAtom (ex_h 1) (map rd ["0.25E+00"; "0.5E+00"; "0.0E+00"]); SAtom (ex_h 11111) (map rd ["0.5"; "0.5"; "0.5"])]%string.
Definition ex_res : list res_item :=
  [RUnits ($"ms") ($"ppm"); RTensor ($"ms") (ex_h 1) (map rd ["1.5E+01"; "-2.5E-02"]); RTensor ($"ms") (ex_h 11111) (map rd ["1.0"; "2.0"]);
   RPair ($"isc_fc") (ex_h 1) (ex_h 2) (map rd ["1.0"; "-2.0"])]%string.
Definition ex_olds : list old_item :=
  [OValue (ex_h 1) (rd "15.9647"); OVector (ex_h 1) (map rd ["0.3571"; "-0.8144"; "0.4573"]%string); OValue (ex_h 1) (rd "16.0"); OProperty (ex_h 1) ($"isotropic") (rd "15.9352")].
Definition ex_coords : list (key * pyval) := dict_of key_eqb (flat_map site_coords ex_sites).
Lemma ok_of' ns : forallb (fun n => wfb n && fitsb n) ns = true -> numbers_ok ns.
Proof. apply forall_of. intros n H. apply andb_true_iff in H as [H1 H2]. split; [now apply wf_of|now apply fits_of]. Qed.
Lemma begins_of w l : startswith ($w) l = true -> begins w l.
Proof. apply begins_iff. Qed.
Lemma calc_of a p name g v b l : l = a ++ (p ++ name) ++ g ++ v ++ b ->
  negb (startswith ($"[") l) && forallb is_space a && forallb is_space g && negb (isempty g) && forallb is_space b && (length p =? 5) &&
  forallb (fun c => negb (is_space c)) (p ++ name) && match v with c :: _ => negb (is_space c) | [] => false end && match rev v with c :: _ => negb (is_space c) | [] => false end = true ->
  calc_row l (Some (name, v)).
Proof.
  intros -> H. do 8 (apply andb_true_iff in H as [H ?]).
  assert (N : forall c, negb (is_space c) = true -> nonblank c). { intros c Hc C. apply blank_iff in C. rewrite C in Hc. discriminate. }
  apply cr_value.
  - apply not_begins_of. now apply negb_true_iff.
  - now apply blanks_of.
  - now apply blanks_of.
  - now destruct g.
  - now apply blanks_of.
  - now apply Nat.eqb_eq.
  - eapply forall_of; [exact N|assumption].
  - destruct v as [|c t]; [discriminate|]. exists c, t. auto.
  - destruct (rev v) as [|c t] eqn:E; [discriminate|]. exists c, (rev t). split; [|auto]. rewrite <- (rev_involutive v), E. reflexivity.
Qed.
Lemma say_some {A} (row : str -> option A -> Prop) l it ls its : row l (Some it) -> lines_say row ls its -> lines_say row (l :: ls) (it :: its).
Proof. exact (ls_cons row l (Some it) ls its). Qed.
Lemma say_none {A} (row : str -> option A -> Prop) l ls its : row l None -> lines_say row ls its -> lines_say row (l :: ls) its.
Proof. exact (ls_cons row l None ls its). Qed.
Lemma old_some l it ls its ts : plain l -> old_row l (Some it) -> old_rows ls its ts -> old_rows (l :: ls) (it :: its) ts.
Proof. exact (ors_row l (Some it) ls its ts). Qed.
Lemma old_none l ls its ts : plain l -> old_row l None -> old_rows ls its ts -> old_rows (l :: ls) its ts.
Proof. exact (ors_row l None ls its ts). Qed.
Lemma plain_of l : contains ($"TOTAL Shielding Tensor") l = false -> re_test RULE_RE l = false -> plain l.
Proof. intros H1 H2. split; [now apply not_mentions_of|]. intros C. apply rule_iff in C. congruence. Qed.
Lemma enclosed_of name l body l' : re_test MAGRES_BEGIN_RE l = true -> magres_name l = name -> forallb (fun x => negb (re_test MAGRES_END_RE x)) body = true ->
  re_test MAGRES_END_RE l' = true -> enclosed name l body l'.
Proof.
  intros H1 H2 H3 H4. split; [|split].
  - apply opening_iff in H1 as [name' H1]. pose proof (opening_name _ _ H1) as E. congruence.
  - eapply forall_of; [|exact H3]. intros x Hx C. apply closing_iff in C. cbv beta in Hx. rewrite C in Hx. discriminate.
  - now apply closing_iff.
Qed.
Lemma key_name_of w s : normalise_key w = s -> key_name w s.
Proof. intros <-. destruct (normalise_key_words w) as (ws & H & _ & E). exists ws. split; [exact H|exact E]. Qed.
Lemma not_tensor_of w : existsb (str_eqb w) TextFiles.tensor_names = false -> ~ tensor_name w.
Proof. intros H C. apply tensor_name_iff in C. congruence. Qed.
Lemma tensor_of w : existsb (str_eqb w) TextFiles.tensor_names = true -> tensor_name w.
Proof. apply tensor_name_iff. Qed.
Example C75_magres_ex : magres_parts None None ex_magres_file [PCalc ex_calc_kvs; PAtoms ex_sites; PRes ex_res; POld ex_coords ex_olds [[map rd ["15.9352"; "-0.0295"; "-0.0295"]%string; map rd ["-0.0295"; "15.9352"; "-0.0295"]%string]]].
Proof.
  unfold ex_magres_file. apply mp_other.
  { intros name C. assert (E : exists name, opening name (ln "#$magres-abinitio-v1.0")) by eauto. apply opening_iff in E. vm_compute in E. discriminate. }
  apply (mp_calc _ _ _ _ _ _ 23).
  - apply enclosed_of; vmr.
  - unfold ex_calc, lns, ex_calc_kvs. cbn [map].
    apply say_some. { apply (calc_of [] ($"calc_") ($"code") ($" ") ($"CASTEP") [newline]); vmr. }
    apply say_some. { apply (calc_of [] ($"calc_") ($"code_version") ($"  ") ($"23.1") [newline]); vmr. }
    apply say_some. { apply (calc_of [] ($"calc_") ($"code_hgversion") ($" ") ($"81dc23eb6+  LDA-fix") (" "%char :: [newline])); vmr. }
    apply say_none; [|constructor]. apply (cr_empty [] ($"calc_comment") [newline]); [apply not_begins_of; vmr|apply blanks_of; vmr|apply blanks_of; vmr|discriminate|].
    eapply (forall_of _ (fun c => negb (is_space c))); [|vmr]. intros c Hc C. apply blank_iff in C. rewrite C in Hc. discriminate.
  - exists [($"code", $"CASTEP")], [($"code_hgversion", $"81dc23eb6+  LDA-fix")], (n_int (rd "23")), ($".1"). split; [reflexivity|]. split; [intros [C|[]]; discriminate C|].
    split; [discriminate|]. split; [right; now exists ($"1")|vmr].
  - apply (mp_atoms _ _ _ _ _ _ ex_coords).
    + apply enclosed_of; vmr.
    + unfold ex_atoms, lns, ex_sites. cbn [map].
      apply say_some. { apply (sr_units _ ($"units")); [apply begins_of; vmr|apply cut_of; vmr]. }
      apply say_some. { apply (sr_lattice _ ($"lattice") (map rd ["3.5E+00"; "0.0E+00"; "1.0E-01"]%string)); [apply begins_of; vmr|apply cut_of; vmr|apply ok_of'; vmr]. }
      apply say_none. { apply sr_other; apply not_begins_of; vmr. }
      apply say_some. { apply (sr_atom _ ($"atom") ($"H") ($"H") (n_int (rd "1")) (map rd ["0.25E+00"; "0.5E+00"; "0.0E+00"]%string)); [apply begins_of; vmr|apply cut_of; vmr|discriminate|apply ok_of'; vmr]. }
      apply say_some. { apply (sr_atom _ ($"atom") ($"H") ($"H") (n_int (rd "11111")) (map rd ["0.5"; "0.5"; "0.5"]%string)); [apply begins_of; vmr|apply cut_of; vmr|discriminate|apply ok_of'; vmr]. }
      constructor.
    + apply dict_of_merged.
    + apply mp_res.
      * apply enclosed_of; vmr.
      * unfold ex_magres, lns, ex_res. cbn [map].
        apply say_some. { apply (rr_units _ _ ($"units")); [apply begins_of; vmr|apply cut_of; vmr]. }
        apply say_some. { apply (rr_tensor _ _ ($"ms") ($"H") (n_int (rd "1")) (map rd ["1.5E+01"; "-2.5E-02"]%string)); [apply not_begins_of; vmr|apply tensor_of; vmr|apply cut_of; vmr|discriminate|apply ok_of'; vmr]. }
        apply say_some. { apply (rr_joined _ _ ($"ms") ($"H") (n_int (rd "11111")) (rd "1.0") [rd "2.0"]); [apply not_begins_of; vmr|apply tensor_of; vmr|apply cut_of; vmr|reflexivity|now intros [C _]|apply ok_of'; vmr]. }
        apply say_some. { apply (rr_pair _ _ ($"isc_fc") ($"H") (n_int (rd "1")) ($"H") (n_int (rd "2")) (map rd ["1.0"; "-2.0"]%string)); [apply not_begins_of; vmr|apply not_tensor_of; vmr|apply begins_of; vmr|apply cut_of; vmr|discriminate|discriminate|apply ok_of'; vmr]. }
        apply say_none; [|constructor]. apply (rr_other _ _ ($"sus") [$"1.0"]); [apply not_begins_of; vmr|apply cut_of; vmr|apply not_tensor_of; vmr|apply not_begins_of; vmr].
      * apply (mp_unknown _ _ ($"other")); [apply enclosed_of; vmr|intros C; cbn in C; repeat (destruct C as [C|C]; [discriminate C|]); exact C|].
        apply mp_old; [apply enclosed_of; vmr| | |constructor].
        -- unfold ex_old, lns, ex_olds. cbn [map].
           apply (ors_title _ [_]); [apply not_mentions_of; vmr|apply rule_iff; vmr|constructor; [intros C; apply rule_iff in C; vm_compute in C; discriminate|constructor]|apply rule_iff; vmr|].
           apply old_none; [apply plain_of; vmr| |].
           { apply (or_other _ ($"H") (n_int (rd "1")) ($"Coordinates") (map (fun x => $x) ["0.000"; "0.000"; "0.000"; "A"]%string)); [apply not_mentions_of; vmr|apply cut_of; vmr|apply not_mentions_of; vmr| |discriminate].
             intros C. cbn in C. repeat (destruct C as [C|C]; [discriminate C|]). exact C. }
           apply old_none; [apply plain_of; vmr|apply or_blank; left; apply blanks_of; vmr|].
           apply (ors_tensor _ [] _ [_; _] _ [[]; []; map rd ["15.9352"; "-0.0295"; "-0.0295"]%string; map rd ["-0.0295"; "15.9352"; "-0.0295"]%string; []]).
           ++ apply mentions_of; vmr.
           ++ repeat (constructor; [intros C; apply empty_blanks in C; vm_compute in C; discriminate|]). constructor.
           ++ apply blanks_of; vmr.
           ++ apply blanks_of; vmr.
           ++ constructor; [apply ex_no_row; vmr|]. constructor; [apply ex_no_row; vmr|].
              constructor. { apply (ex_numbers "              " (rd "15.9352") [("     ", "-0.0295"); ("     ", "-0.0295")]%string [newline]); vmr. }
              constructor. { apply (ex_numbers "              " (rd "-0.0295") [("     ", "15.9352"); ("     ", "-0.0295")]%string [newline]); vmr. }
              constructor; [apply ex_no_row; vmr|constructor].
           ++ apply old_some; [apply plain_of; vmr| |].
              { apply (or_value _ ($"H") (n_int (rd "1")) ($"sigma_xx") (rd "15.9647") [$"(ppm)"]); [apply not_mentions_of; vmr|apply cut_of; vmr|discriminate|apply ok_of'; vmr]. }
              apply old_some; [apply plain_of; vmr| |].
              { apply (or_vector _ ($"H") (n_int (rd "1")) ($"sigma_xx") (map rd ["0.3571"; "-0.8144"; "0.4573"]%string)); [apply not_mentions_of; vmr|apply cut_of; vmr|discriminate|apply ok_of'; vmr]. }
              apply old_some; [apply plain_of; vmr| |].
              { apply (or_value _ ($"H") (n_int (rd "1")) ($"sigma_yy") (rd "16.0") [$"(ppm)"]); [apply not_mentions_of; vmr|apply cut_of; vmr|discriminate|apply ok_of'; vmr]. }
              apply old_some; [apply plain_of; vmr| |constructor].
              apply (or_property _ ($"H") (n_int (rd "1")) ($"Isotropic:") ($"isotropic") (rd "15.9352") [$"(ppm)"]); [apply not_mentions_of; vmr|apply cut_of; vmr|apply mentions_of; vmr|apply key_name_of; vmr|discriminate|apply ok_of'; vmr|].
              intros C. cbn in C. repeat (destruct C as [C|C]; [discriminate C|]). exact C.
        -- repeat (constructor; [intros C; apply C; vm_compute; now left|]). constructor.
Qed.

(** An empty line in the magres block ends the reading with an error. *)
Theorem C75_magres_blank_refuted :
  parse_magres_file (lns ["[calculation]"; "calc_code_version 23.1"; "[/calculation]"; "[magres]"; ""; "[/magres]"]%string) = Err IndexError.
Proof. vm_compute. reflexivity. Qed.
Print Assumptions C75_magres_blank_refuted.
(** So does a magres block without a calculation block before it. *)
Theorem C75_magres_order_refuted : parse_magres_file (lns ["[magres]"; "units ms ppm"; "[/magres]"]%string) = Err UnboundLocalError.
Proof. vm_compute. reflexivity. Qed.
Print Assumptions C75_magres_order_refuted.
(** The shielding tensor is kept of the last atom only. *)
Theorem C75_magres_shielding_refuted :
  exists d, parse_magres_file (lns ["[atoms]"; "atom H H 1 0.0 0.0 0.0"; "atom H H 2 0.0 0.0 0.5"; "[/atoms]"; "[magres_old]";
    "===="; "Atom: H 1"; "===="; "TOTAL Shielding Tensor"; ""; "  1.5"; ""; "===="; "Atom: H 2"; "===="; "TOTAL Shielding Tensor"; ""; "  2.5"; "";
    "[/magres_old]"]%string) = Ok (VDict true d) /\ dget key_eqb d (kstr "total_shielding") = Some (VList [VTuple [VFloat (FQ (5 # 2))]]) /\
    dget key_eqb d (kstr "atom_info") = Some (VDict false (map (fun p => (SpecDict.atom_key ($"H", fst p), VDict true [(kstr "coords", VTuple (map VFloat [FQ (0 # 1); FQ (0 # 1); FQ (snd p)]))])) [(1%Z, (0 # 1)%Q); (2%Z, (1 # 2)%Q)])).
Proof. eexists. split; [vm_compute; reflexivity|]. split; vm_compute; reflexivity. Qed.
Print Assumptions C75_magres_shielding_refuted.
