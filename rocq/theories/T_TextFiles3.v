(** Property theorems C72 and C73: .xrd_sf and .tddft files. *)
From Coq Require Import Permutation.
From Verif Require Import PyBase PyFacts PyVal Regex NumSpec SpecLine SpecTable SpecStr SpecBands SpecDict DictUtil DictFacts SpecMd SpecCastep SpecFiles SpecFiles2 SpecFiles3 CastepRes StrUtil StrUtilFacts
  TypeConv Stream Header TextFiles MdFacts NumProps TextParsers TextParsersFacts HeaderFacts BandsFacts FileFacts FileParts FileParts2 FileParts3 ExampleTools T_TextFiles T_TextFiles2.
From Verif Require T_Castep T_TextParsers.
Local Open Scope list_scope.
Local Open Scope nat_scope.

(** C72.  .xrd_sf files.  [iter] is the order in which the set of names is gone
    through, which is not fixed. *)
Theorem C72_xrd_sf iter hs rows ls : (forall l, Permutation (iter l) l) -> good_heads hs -> xrd_file hs rows ls ->
  exists d, parse_xrd_sf_file iter ls = Ok (VDict true d) /\ xrd_says hs rows d.
Proof. exact (xrd_exact iter hs rows ls). Qed.
Print Assumptions C72_xrd_sf.
Definition ex_xrd : list str :=
  lns ["   h   k   l   Re(F_PAW)   Im(F_PAW)   Im(F_core)  Re(F_core)"; "   0   0   0  112.5    0.25  0.125    80.0"; "   1  -1   1   42.5  -42.25   41.5   -41.75"]%string.
Definition ex_heads : list (bool * str) := [(true, $"f_paw"); (false, $"f_paw"); (false, $"f_core"); (true, $"f_core")].
Definition ex_factors : list (list num * list num) :=
  [(map rd ["0"; "0"; "0"], map rd ["112.5"; "0.25"; "0.125"; "80.0"]); (map rd ["1"; "-1"; "1"], map rd ["42.5"; "-42.25"; "41.5"; "-41.75"])]%string.
Lemma ex_factor hs a i js t1 ns t2 s l : l = a ++ write_num i ++ t1 ++ t2 ++ s ->
  forallb is_space a && forallb (fun n => is_intb n && wfb n) (i :: js) && columnsb js t1 && columnsb ns t2 && forallb fitsb ns && match s with c :: _ => is_space c | [] => true end = true ->
  length js = 2 -> length ns = length hs -> factor_row hs l (i :: js, ns).
Proof.
  intros -> H Hj Hn. do 5 (apply andb_true_iff in H as [H ?]).
  constructor; try assumption; [now apply blanks_of| |now apply columns_of|now apply columns_of|now apply T_Castep.end_of|now apply T_Castep.all_fit_of].
  match goal with K : forallb _ (i :: js) = true |- _ => revert K end. apply forall_of. intros n Hn'. apply andb_true_iff in Hn' as [? ?]. split; [now apply is_int_of|now apply wf_of].
Qed.
Example C72_xrd_sf_ex : good_heads ex_heads /\ xrd_file ex_heads ex_factors ex_xrd.
Proof.
  split.
  - split; [repeat constructor; cbn; intuition discriminate|]. split.
    + repeat (constructor; [split; [apply identifier_of; vmr|discriminate]|]). constructor.
    + intros b n H. cbn in H |- *. repeat (destruct H as [H|H]; [injection H as <- <-; cbn; tauto|]). destruct H.
  - unfold ex_xrd, lns. cbn [map]. constructor.
    + apply (hl _ _ ($"h") ($"k") ($"l") [$"Re(F_PAW)"; $"Im(F_PAW)"; $"Im(F_core)"; $"Re(F_core)"]); [apply cut_of; vmr|].
      constructor; [exists ($"F_PAW"); now split|]. constructor; [exists ($"F_PAW"); now split|]. constructor; [exists ($"F_core"); now split|]. constructor; [exists ($"F_core"); now split|constructor].
    + constructor; [|constructor; [|constructor]].
      * apply (ex_factor ex_heads ($"   ") (rd "0") (map rd ["0"; "0"]%string) ($"   0   0") (map rd ["112.5"; "0.25"; "0.125"; "80.0"]%string)
          ($"  112.5    0.25  0.125    80.0") [newline]); vmr.
      * apply (ex_factor ex_heads ($"   ") (rd "1") (map rd ["-1"; "1"]%string) ($"  -1   1") (map rd ["42.5"; "-42.25"; "41.5"; "-41.75"]%string)
          ($"   42.5  -42.25   41.5   -41.75") [newline]); vmr.
Qed.

(** C73.  .tddft files. *)
Theorem C73_tddft ls its ps : tddft_file its ps ls -> (atoms its = [] \/ sites its = []) ->
  exists es es' d, parse_tddft_file ls = Ok (VDict false d) /\ header_says its es /\ Forall2 tddft_says ps es' /\ merged (es ++ es') d.
Proof. exact (tddft_exact ls its ps). Qed.
Print Assumptions C73_tddft.
Definition ex_tddft_tables : list str :=
  lns ["BEGIN Characterisation of states as Kohn-Sham bands"; " State      Occ.         Unocc.        Overlap";
       "         1         3 -->          6       0.497606"; "         1         4 -->          7       0.25"; " Total overlap for state    1 = 0.75";
       "         2         3 -->          6       0.5"; "END Characterisation of states as Kohn-Sham bands"; "";
       "BEGIN TDDFT Spectroscopic Data"; " State   Excitation Energy         Characterisation   Converged";
       "   1   6.5E+000       Singlet           Yes     ( -8.125E-006 -3.5)   (  3.25  1.5)"; "   2   6.75       Triplet           No  ";
       "END TDDFT Spectroscopic Data"]%string.
Definition ex_exc1 : excitation := {| ex_energy := rd "6.5E+000"; ex_kind := $"Singlet"; ex_done := true; ex_dipoles := [(rd "-8.125E-006", rd "-3.5"); (rd "3.25", rd "1.5")] |}.
Definition ex_exc2 : excitation := {| ex_energy := rd "6.75"; ex_kind := $"Triplet"; ex_done := false; ex_dipoles := [] |}.
Definition ex_tddft_parts : list tddft_part := [States [([(3%Z, 6%Z, rd "0.497606"); (4%Z, 7%Z, rd "0.25")], rd "0.75")]; Spectrum [ex_exc1; ex_exc2]].
Lemma ex_h_block : header_block "Higest occupied band" (ex_items []) (ex_header []).
Proof.
  apply (hb _ _ (ln " BEGIN header") (removelast (skipn 1 (ex_header []))) (ln " END header")).
  - split; [apply mentions_of; vmr|]. split; [|apply mentions_of; vmr].
    apply (forall_of _ (fun x => negb (contains ($"END header") x))); [|vmr]. intros x Hx. apply not_mentions_of. now apply negb_true_iff.
  - apply (hr_line _ _ None); [apply ex_head_other; vmr|].
    pose proof (ex_header_tail "Higest occupied band" []) as T. rewrite app_nil_r in T. apply T; [|now left].
    intros l [<-|[<-|[]]]; apply ex_head_other; vmr.
Qed.
Lemma untitled_of w l : contains ($w) l = false -> ~ titled w l.
Proof. intros H (a & e & _ & E). apply (not_mentions_of _ _ H). now exists a, e. Qed.
Lemma titled_of w a e : forallb is_space a = true -> titled w (a ++ text_of w ++ e).
Proof. intros H. exists a, e. split; [now apply blanks_of|reflexivity]. Qed.
Lemma ex_state a ds g1 o g2 g3 u t n s l : l = a ++ write_digits ds ++ g1 ++ write_digits o ++ g2 ++ text_of "-->" ++ g3 ++ write_digits u ++ t ++ s ->
  forallb is_space (a ++ g1 ++ g2 ++ g3) && negb (isempty ds || isempty g1 || isempty o || isempty u) && columnsb [n] t && fitsb n &&
  match s with c :: _ => is_space c | [] => true end = true -> state_line l (Some (Overlap (decimal o) (decimal u) n)).
Proof.
  intros -> H. do 4 (apply andb_true_iff in H as [H ?]). rewrite !forallb_app in H. do 3 (apply andb_true_iff in H as [? H]).
  match goal with K : negb _ = true |- _ => apply negb_true_iff in K; do 3 (apply orb_false_iff in K as [K ?]) end.
  constructor; try (now apply blanks_of); try (now apply columns_of).
  - now destruct ds.
  - now destruct g1.
  - now destruct o.
  - now destruct u.
  - now apply T_Castep.end_of.
  - constructor; [now apply fits_of|constructor].
Qed.
Lemma ex_no_state l : contains ($"Total overlap for state") l = false -> contains ($"-->") l = false -> state_line l None.
Proof. intros H1 H2. apply sl_other; [now apply untitled_of|now apply not_mentions_of]. Qed.
Lemma ex_no_spectrum l : contains ($"Yes") l = false -> contains ($"No") l = false -> spectrum_row l None.
Proof. intros H1 H2. apply sp_none; now apply not_mentions_of. Qed.
Lemma ex_spectrum x a ds t g1 g2 g3 d e l : l = a ++ write_digits ds ++ t ++ g1 ++ ex_kind x ++ g2 ++ text_of (if ex_done x then "Yes" else "No") ++ g3 ++ d ++ e ->
  forallb is_space (a ++ g1 ++ g2 ++ g3) && negb (isempty ds || isempty g1 || isempty g2 || isempty (ex_kind x)) && columnsb [ex_energy x] t &&
  forallb fitsb (ex_energy x :: pair_nums (ex_dipoles x)) && forallb is_word (ex_kind x) && match d ++ e with c :: _ => negb (is_space c) | [] => true end &&
  negb (chr_in newline d) = true -> (e = [] \/ exists e', e = newline :: e') -> number_line (pair_nums (ex_dipoles x)) d -> spectrum_row l (Some x).
Proof.
  intros -> H He Hn. do 6 (apply andb_true_iff in H as [H ?]). rewrite !forallb_app in H. do 3 (apply andb_true_iff in H as [? H]).
  match goal with K : negb (_ || _) = true |- _ => apply negb_true_iff in K; do 3 (apply orb_false_iff in K as [K ?]) end.
  constructor; try assumption; try (now apply blanks_of); try (now apply columns_of).
  - now destruct ds.
  - now destruct g1.
  - split; [now destruct (ex_kind x)|now apply words_iff].
  - now destruct g2.
  - apply ex_not_in. now apply negb_true_iff.
  - intros c r E Hb. apply blank_iff in Hb. match goal with K : match d ++ e with _ => _ end = true |- _ => rewrite E, Hb in K; discriminate end.
  - now apply T_Castep.all_fit_of.
Qed.
Example C73_tddft_ex : tddft_file (ex_items []) ex_tddft_parts (ex_header [] ++ ex_tddft_tables) /\ atoms (ex_items []) = [].
Proof.
  split; [|reflexivity]. constructor; [exact ex_h_block|]. unfold ex_tddft_tables, lns. cbn [map].
  apply (tp_states _ [_; _; _; _; _] _ [None; None; Some (Overlap 3 6 (rd "0.497606")); Some (Overlap 4 7 (rd "0.25")); Some (Total (rd "0.75")); Some (Overlap 3 6 (rd "0.5")); None]).
  - no_mention.
  - split; [apply mentions_of; vmr|]. split; [|apply mentions_of; vmr]. repeat constructor; no_mention.
  - constructor; [apply ex_no_state; vmr|]. constructor; [apply ex_no_state; vmr|].
    constructor; [apply (ex_state ($"         ") (n_int (rd "1")) ($"         ") (n_int (rd "3")) ($" ") ($"          ") (n_int (rd "6")) ($"       0.497606") (rd "0.497606") [newline]); vmr|].
    constructor; [apply (ex_state ($"         ") (n_int (rd "1")) ($"         ") (n_int (rd "4")) ($" ") ($"          ") (n_int (rd "7")) ($"       0.25") (rd "0.25") [newline]); vmr|].
    constructor. { apply (sl_total _ [rd "1"]); [exact (titled_of "Total overlap for state" [" "%char] (ln "    1 = 0.75") eq_refl)|no_mention| |].
      - apply (proj1 (ex_numbers " Total overlap for state    " (rd "1") [(" = ", "0.75")]%string [newline] _ eq_refl eq_refl eq_refl)).
      - apply T_Castep.all_fit_of. vmr. }
    constructor; [apply (ex_state ($"         ") (n_int (rd "2")) ($"         ") (n_int (rd "3")) ($" ") ($"          ") (n_int (rd "6")) ($"       0.5") (rd "0.5") [newline]); vmr|].
    constructor; [apply ex_no_state; vmr|constructor].
  - apply (st_state [(3%Z, 6%Z, rd "0.497606"); (4%Z, 7%Z, rd "0.25")]). apply (st_left [(3%Z, 6%Z, rd "0.5")]).
  - apply tp_other; [no_mention|no_mention|no_mention|].
    apply (tp_spectrum _ [_; _; _] _ [None; None; Some ex_exc1; Some ex_exc2; None]).
    + no_mention.
    + no_mention.
    + split; [apply mentions_of; vmr|]. split; [|apply mentions_of; vmr]. repeat constructor; no_mention.
    + constructor; [apply ex_no_spectrum; vmr|]. constructor; [apply ex_no_spectrum; vmr|].
      constructor; [apply (ex_spectrum ex_exc1 ($"   ") (n_int (rd "1")) ($"   6.5E+000") ($"       ") ($"           ") ($"     ") ($"( -8.125E-006 -3.5)   (  3.25  1.5)") [newline]); [vmr|vmr|right; now exists []|]|].
      { apply (proj1 (ex_numbers "( " (rd "-8.125E-006") [(" ", "-3.5"); (")   (  ", "3.25"); ("  ", "1.5")]%string ($")") _ eq_refl eq_refl eq_refl)). }
      constructor; [apply (ex_spectrum ex_exc2 ($"   ") (n_int (rd "2")) ($"   6.75") ($"       ") ($"           ") (ln "  ") [] []); [vmr|vmr|now left|apply nums_none; vmr]|].
      constructor; [apply ex_no_spectrum; vmr|constructor].
    + constructor.
Qed.
(** The option asked for is misspelt, so the band named in real headers is not read. *)
Theorem C73_tddft_refuted : exists d, parse_tddft_file (ex_header [" Highest occupied band for spin channel 1          4"]%string ++ ex_tddft_tables) = Ok (VDict false d) /\
  map fst d = map kstr ["ions"; "unit_cell"; "coords"; "overlap"; "spectroscopic_data"]%string.
Proof. eexists. split; vm_compute; reflexivity. Qed.
Print Assumptions C73_tddft_refuted.
