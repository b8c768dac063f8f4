(** Property theorems C87: pseudopotential strings and SPECIES_POT blocks. *)
From Coq Require Import QArith.
From Verif Require Import PyBase PyFacts PyVal Regex CastepRes NumSpec SpecLine SpecTable SpecStr SpecBands SpecDict SpecMd SpecCastep SpecCastep4
  StrUtil NumProps CastepRows CastepFacts Castep2Facts CellParam Pspot SpecCell SpecPspot PspotFacts ExampleTools ExampleTools2.
From Verif Require Import T_CellParam.
Local Open Scope list_scope.
Local Open Scope nat_scope.

(** *** Beta functions *)
Theorem C87_beta_functions_read b : beta_ok b -> parse_beta_function (write_beta b) = Ok (beta_read b).
Proof. exact (beta_spec b). Qed.
Print Assumptions C87_beta_functions_read.
(** *** Whole definitions *)
Theorem C87_definitions_read p : pspot_ok p -> parse_pspot_string (write_pspot p) = Ok (pspot_read p).
Proof. exact (pspot_spec p). Qed.
Print Assumptions C87_definitions_read.
(** *** Blocks of definitions; the last line, the end marker, is not read *)
Theorem C87_species_pot_read ls es last : laid pot_row blanks ls es -> exists d, parse_species_pot (ls ++ [last]) = Ok (VDict false d) /\ merged es d.
Proof. exact (species_pot_spec ls es last). Qed.
Print Assumptions C87_species_pot_read.
Theorem C87_species_pot_file ls body e es d : one_block ls ($"species_pot") (body ++ [e]) -> laid pot_row blanks body es -> merged es d ->
  parse_cell_param_file parse_devel_code_block parse_species_pot ls = Ok (VList [VDict false [(KStr ($"species_pot"), VDict false d)]]).
Proof. exact (species_pot_file ls body e es d). Qed.
Print Assumptions C87_species_pot_file.
(** *** What is lost and what is rejected *)
(** Energies of opposite sign are read as the same beta function. *)
Theorem C87_energy_sign_refuted :
  exists v, parse_beta_function ($"43U1.6+0.1") = Ok v /\ parse_beta_function ($"43U1.6-0.1") = Ok v.
Proof. eexists. split; vmr. Qed.
Print Assumptions C87_energy_sign_refuted.
(** A local energy is not read: it would have to follow a blank. *)
Theorem C87_local_energy_refuted :
  parse_pspot_string ($"0.5=2|1.8|3.675|5.512|7.35|30UU:31UU:32LGG") = Err ValueError /\
  parse_species_pot [$"Si 0.5=2|1.8|3.675|5.512|7.35|30UU:31UU:32LGG"; $"%ENDBLOCK SPECIES_POT"] =
    Ok (VDict false [(KStr ($"Si"), VStr ($"0.5=2|1.8|3.675|5.512|7.35|30UU:31UU:32LGG"))]).
Proof. split; vmr. Qed.
Print Assumptions C87_local_energy_refuted.

(** *** Examples *)
Definition unsigned_b (n : num) : bool := okb n && fitsb n && match n_sign n with NoSign => true | _ => false end && match n_exp n with None => true | _ => false end.
Lemma unsigned_of n : unsigned_b n = true -> unsigned n.
Proof.
  intros H. apply andb_true_iff in H as [H H4]. apply andb_true_iff in H as [H H3]. apply andb_true_iff in H as [H1 H2]. split; [now apply ok_of|]. split; [now destruct (n_sign n)|]. split; [now destruct (n_exp n)|now apply fits_of].
Qed.
Definition projector_b (p : SpecPspot.projector) : bool :=
  chr_in (pj_type p) ($"UNGHLP") && match pj_rc p with Some n => unsigned_b n | None => true end &&
  match pj_e p with Some (m, n) => existsb (String.eqb m) energy_marks && unsigned_b n | None => true end && match pj_delta p with Some n => unsigned_b n | None => true end.
Lemma projector_of p : projector_b p = true -> projector_ok p.
Proof.
  intros H. apply andb_true_iff in H as [H H4]. apply andb_true_iff in H as [H H3]. apply andb_true_iff in H as [H1 H2]. split; [now apply chr_in_among|]. split; [|split].
  - intros n E. rewrite E in H2. now apply unsigned_of.
  - intros m n E. rewrite E in H3. apply andb_true_iff in H3 as [H3 H5]. split; [|now apply unsigned_of]. apply existsb_exists in H3 as (x & Hx & E'). apply String.eqb_eq in E'. now subst x.
  - intros n E. rewrite E in H4. now apply unsigned_of.
Qed.
Definition beta_b (b : beta) : bool := match shell_letter (b_shell b) with Some _ => true | None => false end && forallb projector_b (b_projectors b).
Lemma beta_of b : beta_b b = true -> beta_ok b.
Proof. intros H. apply andb_true_iff in H as [H1 H2]. split; [now destruct (shell_letter (b_shell b))|]. eapply forall_of; [|exact H2]. apply projector_of. Qed.
Definition pj (t : ascii) : SpecPspot.projector := {| pj_type := t; pj_rc := None; pj_e := None; pj_delta := None |}.
Definition ex_f : beta := {| b_orbital := d4; b_shell := d3; b_projectors :=
  [{| pj_type := "U"; pj_rc := Some (rd "1.6"); pj_e := Some ("+"%string, rd "0"); pj_delta := None |};
   {| pj_type := "U"; pj_rc := Some (rd "1.6"); pj_e := Some ("=-"%string, rd "0.1"); pj_delta := Some (rd ".25") |}; pj "L"] |}.
Example C87_beta_functions_read_ex : beta_ok ex_f /\ write_beta ex_f = $"43U1.6+0U1.6=-0.1@.25L" /\
  beta_read ex_f = VDict false
    [(KStr ($"orbital"), VInt 4); (KStr ($"shell"), VStr ($"f")); (KStr ($"shell_ind"), VInt 3);
     (KStr ($"projectors"), VList
       [VDict false [(KStr ($"type"), VStr ($"U")); (KStr ($"beta_rc"), VFloat (FQ (8 # 5))); (KStr ($"beta_e"), VFloat (FQ 0))];
        VDict false [(KStr ($"type"), VStr ($"U")); (KStr ($"beta_rc"), VFloat (FQ (8 # 5))); (KStr ($"beta_e"), VFloat (FQ (1 # 10))); (KStr ($"beta_delta"), VFloat (FQ (1 # 4)))];
        VDict false [(KStr ($"type"), VStr ($"L"))]])].
Proof. split; [apply beta_of; vmr|]. split; vmr. Qed.

Lemma shell_of d c ds : among "spdf" c -> length ds <= 2 -> shell (digit_char d :: c :: write_digits ds).
Proof. exact (shl d c ds). Qed.
Definition ps (fit : fit) (ch : list digit) (core : string) (inner : option (string * string)) (c m f : string) (bs : list beta) (es : list extra) : pspot :=
  {| ps_fit := fit; ps_channel := ch; ps_core := rd core; ps_inner := match inner with Some (a, b) => Some (rd a, rd b) | None => None end;
     ps_coarse := rd c; ps_medium := rd m; ps_fine := rd f; ps_betas := bs; ps_extras := es |}.
Definition radius_b (n : num) : bool := okb n && fitsb n.
Lemma radius_of n : radius_b n = true -> radius n.
Proof. intros H. apply andb_true_iff in H as [H1 H2]. split; [now apply ok_of|now apply fits_of]. Qed.
Definition kinds_b (es : list extra) : bool := match map extra_kind es with [] => true | [a] => true | [a; b] => negb (a =? b) | [a; b; c] => negb ((a =? b) || (a =? c) || (b =? c)) | _ => false end.
Lemma kinds_of es : kinds_b es = true -> NoDup (map extra_kind es).
Proof.
  unfold kinds_b. destruct (map extra_kind es) as [|a [|b [|c [|d l]]]]; intros H; try discriminate H.
  - constructor.
  - constructor; [intros []|constructor].
  - apply negb_true_iff, Nat.eqb_neq in H. constructor; [intros [E|[]]; congruence|]. constructor; [intros []|constructor].
  - apply negb_true_iff in H. apply orb_false_iff in H as [H H3]. apply orb_false_iff in H as [H1 H2]. apply Nat.eqb_neq in H1, H2, H3.
    constructor; [intros [E|[E|[]]]; congruence|]. constructor; [intros [E|[]]; congruence|]. constructor; [intros []|constructor].
Qed.
Definition pspot_b (p : pspot) : bool :=
  negb (isempty (ps_channel p)) && fitsb (whole (ps_channel p)) && forallb radius_b [ps_core p; ps_coarse p; ps_medium p; ps_fine p] &&
  match ps_inner p with Some (a, b) => radius_b a && radius_b b | None => true end && negb (isempty (ps_betas p)) && forallb beta_b (ps_betas p) && kinds_b (ps_extras p).
Lemma pspot_of p : pspot_b p = true -> Forall extra_ok (ps_extras p) -> pspot_ok p.
Proof.
  intros H He. apply andb_true_iff in H as [H H7]. apply andb_true_iff in H as [H H6]. apply andb_true_iff in H as [H H5]. apply andb_true_iff in H as [H H4]. apply andb_true_iff in H as [H H3]. apply andb_true_iff in H as [H1 H2].
  split; [now apply ne_nil|]. split; [now apply fits_of|]. split; [eapply forall_of; [|exact H3]; apply radius_of|]. split; [|split; [now apply ne_nil|split; [eapply forall_of; [|exact H6]; apply beta_of|split; [exact He|now apply kinds_of]]]].
  intros a b E. rewrite E in H4. apply andb_true_iff in H4 as [H4 H8]. split; now apply radius_of.
Qed.
Definition bt (o s : digit) (l : list ascii) : beta := {| b_orbital := o; b_shell := s; b_projectors := map pj l |}.
Definition ex_xe : pspot := ps FitAfter [d2] "2" (Some ("2", "1.4")%string) "8" "11" "11" [bt d5 d0 ["N"%char]; bt d6 d0 ["N"; "H"]%char; ex_f]
  [Adjust [$"5d0.9"; $"4f0.1"]; Flags [$"qc=6"; $"tm"]; Testing [[]]].
Definition ex_si : pspot := ps NoFit [d2] "1.8" None "3.675" "5.512" "7.35" [bt d3 d0 ["U"; "U"]%char; bt d3 d1 []] [Testing [$"3s2"; $"3p1.5"]].
Lemma occ_shell w d c ds : w = digit_char d :: c :: write_digits ds -> chr_in c ($"spdf") = true -> (length ds <=? 2) = true -> occupied w.
Proof. intros -> Hc Hl. left. apply shell_of; [now apply chr_in_among|now apply Nat.leb_le]. Qed.
Lemma occ_part w d c ds es : w = (digit_char d :: c :: write_digits ds) ++ "."%char :: write_digits es -> chr_in c ($"spdf") = true -> (length ds <=? 2) = true -> negb (isempty es) = true -> occupied w.
Proof. intros -> Hc Hl He. right. exists (digit_char d :: c :: write_digits ds), es. split; [apply shell_of; [now apply chr_in_among|now apply Nat.leb_le]|]. split; [now apply ne_nil|reflexivity]. Qed.
Lemma ex_xe_ok : pspot_ok ex_xe.
Proof.
  apply pspot_of; [vmr|]. cbn [ps_extras ex_xe ps]. repeat apply Forall_cons; [| | |constructor].
  - split; [discriminate|]. repeat apply Forall_cons; [| |constructor].
    + apply (occ_part _ d5 "d" [d0] [d9]); vmr.
    + apply (occ_part _ d4 "f" [d0] [d1]); vmr.
  - split; [discriminate|]. split; [|discriminate]. intros w [<-|[<-|[]]]; apply free_of_b; vmr.
  - left. reflexivity.
Qed.
Lemma ex_si_ok : pspot_ok ex_si.
Proof.
  apply pspot_of; [vmr|]. cbn [ps_extras ex_si ps]. repeat apply Forall_cons; [|constructor]. right. split; [discriminate|]. repeat apply Forall_cons; [| |constructor].
  - apply (occ_shell _ d3 "s" [d2]); vmr.
  - apply (occ_part _ d3 "p" [d1] [d5]); vmr.
Qed.
Example C87_definitions_read_ex : pspot_ok ex_xe /\ write_pspot ex_xe = $"2-|2|2|1.4|8|11|11|50N:60NH:43U1.6+0U1.6=-0.1@.25L{5d0.9,4f0.1}(qc=6,tm)[]" /\
  pspot_ok ex_si /\ write_pspot ex_si = $"2|1.8|3.675|5.512|7.35|30UU:31[3s2,3p1.5]" /\
  pspot_read ex_si = VDict false
    [(KStr ($"print"), VBool true); (KStr ($"poly_fit"), VBool false);
     (KStr ($"beta_functions"), VList
       [VDict false [(KStr ($"orbital"), VInt 3); (KStr ($"shell"), VStr ($"s")); (KStr ($"shell_ind"), VInt 0);
                     (KStr ($"projectors"), VList [VDict false [(KStr ($"type"), VStr ($"U"))]; VDict false [(KStr ($"type"), VStr ($"U"))]])];
        VDict false [(KStr ($"orbital"), VInt 3); (KStr ($"shell"), VStr ($"p")); (KStr ($"shell_ind"), VInt 1); (KStr ($"projectors"), VList [])]]);
     (KStr ($"string"), VStr ($"2|1.8|3.675|5.512|7.35|30UU:31[3s2,3p1.5]")); (KStr ($"testing"), VList [VStr ($"3s2"); VStr ($"3p1.5")]);
     (KStr ($"local_channel"), VFloat (FQ 2)); (KStr ($"core_radius"), VFloat (FQ (9 # 5))); (KStr ($"coarse"), VFloat (FQ (147 # 40)));
     (KStr ($"medium"), VFloat (FQ (689 # 125))); (KStr ($"fine"), VFloat (FQ (147 # 20))); (KStr ($"beta_function_string"), VStr ($"30UU:31"))].
Proof. split; [exact ex_xe_ok|]. split; [vmr|]. split; [exact ex_si_ok|]. split; vmr. Qed.
Lemma solid_b w : negb (isempty w) && forallb (fun c => negb (is_space c)) w = true -> solid w.
Proof. intros H. apply andb_true_iff in H as [H0 H]. split; [now apply ne_nil|]. intros c Hc. rewrite forallb_forall in H. apply StrUtilFacts.nonblank_iff. auto. Qed.
Definition pot_lines : list str := [$"Si " ++ write_pspot ex_si; []; $"O  O_00PBE.usp"; $"C19"; $"Xe " ++ write_pspot ex_xe].
Definition pot_es : list (key * pyval) := [(KStr ($"Si"), pspot_read ex_si); (KStr ($"O"), VStr ($"O_00PBE.usp")); (KNone, VStr ($"C19")); (KStr ($"Xe"), pspot_read ex_xe)].
Lemma pot_laid : laid pot_row blanks pot_lines pot_es.
Proof.
  apply laid_row. { apply (pr_defined [] ($"Si") ($" ") ex_si); [constructor|apply solid_b; vmr|apply gap_b; vmr|exact ex_si_ok]. }
  apply laid_other; [constructor|].
  apply laid_row. { apply (pr_file [] ($"O") ($"  ") "O" ($"_00PBE.usp")); [constructor|apply solid_b; vmr|apply gap_b; vmr|apply StrUtilFacts.nonblank_iff; vmr|apply not_in_of; vmr]. }
  apply laid_row. { apply (pr_library [] ($"C19") []); [constructor|apply solid_b; vmr|constructor]. }
  apply laid_row. { apply (pr_defined [] ($"Xe") ($" ") ex_xe); [constructor|apply solid_b; vmr|apply gap_b; vmr|exact ex_xe_ok]. }
  constructor.
Qed.
Definition pot_file : list str := ln "%BLOCK species_pot" :: map (fun l => l ++ [newline]) pot_lines ++ [ln "%ENDBLOCK species_pot"].
Example C87_species_pot_read_ex : laid pot_row blanks pot_lines pot_es /\
  one_block pot_file ($"species_pot") (filter (fun l => negb (isempty l)) pot_lines ++ [$"%ENDBLOCK species_pot"]) /\
  laid pot_row blanks (filter (fun l => negb (isempty l)) pot_lines) pot_es /\ merged pot_es pot_es.
Proof.
  split; [exact pot_laid|]. split; [|split].
  - eapply here; [reflexivity| | | | |]; [apply (head_of [] ($"%BLOCK ") [] ($"species_pot") [newline]); first [constructor|vmr|discriminate]|vmr|vmr|vmr|vmr].
  - change (filter (fun l => negb (isempty l)) pot_lines) with [$"Si " ++ write_pspot ex_si; $"O  O_00PBE.usp"; $"C19"; $"Xe " ++ write_pspot ex_xe].
    pose proof pot_laid as L. inversion L as [|? ? ? ? H1 L1|? ? ? H1 L1]; subst; [|exfalso; revert H1; apply not_blank_b; vmr]. apply laid_row; [exact H1|].
    inversion L1 as [|? ? ? ? H2 L2|? ? ? H2 L2]; subst; [|exact L2]. exfalso. inversion H2 as [a w b Ha [Hw _] Hb E|a w g x t Ha [Hw _] Hg Hx Ht E|a w g p Ha [Hw _] Hg Hp E]; apply app_eq_nil in E as [_ E]; apply app_eq_nil in E as [E _]; congruence.
  - replace pot_es with (PyBase.dict_of key_eqb pot_es) at 2 by vmr. apply (DictFacts.merged_dict_of key_eqb IntStr.key_eqb_spec).
Qed.
