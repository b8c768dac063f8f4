(** The predicted files are those of the rules: all together. *)
From Coq Require Import Lia Sorted.
From Verif Require Import PyBase PyFacts PyVal SpecStr StrUtilFacts IntStr
  DictUtil SpecDict DictFacts DictSmall PathLib SpecCli PathFacts GenFiles SpecGen GenFacts GenMain.
Local Open Scope list_scope.
Local Open Scope nat_scope.

(** ** All rules together *)
Local Tactic Notation "skip" int_or_var(n) := do n right; left.
Theorem predict_iff first ext p cell seed l : well_keyed (VDict false p) -> well_keyed (VDict false cell) ->
  predict first ext p cell seed = Ok l ->
  StronglySorted text_lt l /\ exists xc, (forall r, In r xc <-> functional p r) /\
    forall f, In f l <-> predicted (key_str ext) p cell seed (first xc) f.
Proof.
  intros Wp Wc H. unfold predict in H.
  destruct (as_str (pget p "task" (VStr ($"SINGLEPOINT")))) as [t|] eqn:Ht; [|discriminate H]. cbn [bind] in H.
  destruct (enum_call task_members (VStr (upper t))) as [T|] eqn:HT; [|discriminate H]. cbn [bind] in H.
  destruct (get_xc_info p) as [xc|] eqn:Hxc; [|discriminate H]. cbn [bind] in H.
  destruct (as_str (pget p "spin_treatment" (VStr ($"NONE")))) as [spt|] eqn:Hsp; [|discriminate H]. cbn [bind] in H.
  destruct (as_dict (pget p "devel_code" (VDict false []))) as [devel|] eqn:Hdev; [|discriminate H]. cbn [bind] in H.
  destruct (as_num (pget p "tddft_selected_state" (VInt 0))) as [q|] eqn:Eq; [|discriminate H]. cbn [bind rmap] in H.
  change (if pon p "write_none" then silence p else p) with (after p) in H.
  change (str_eqb (upper spt) ($"VECTOR") || pon p "spin_orbit_coupling" || pon p "spin_polarised" || pon p "spin_polarized") with (is_spin p spt) in H.
  change (meets xc ["ms2"; "rscan"; "r2scan"; "libxc_mgga"; "libxc_hyb_mgga"]%string) with (is_mgga xc) in H.
  change (meets xc ["hf"; "hf-lda"; "shf"; "sx-lda"; "shf-lda"; "pbe0"; "b3lyp"; "hse03"; "hse06"; "spbe0"]%string) with (is_nlxc xc) in H.
  change (meets xc ["oep"; "lfx"; "elp"; "ceda"]%string) with (is_oep xc) in H.
  change (truth (pget devel "_pp" (VBool false))) with (is_pp devel) in H.
  destruct (check_files _ _) as [check|] eqn:Hcheck; [|discriminate H]. cbn [bind] in H.
  destruct (pp_files _ _ _ _) as [pp|] eqn:Hpp; [|discriminate H]. cbn [bind] in H.
  destruct (as_dict (pget cell "species_pot" (VDict false []))) as [pots|] eqn:Epots; [|discriminate H]. cbn [bind] in H.
  destruct (foldM _ _ _) as [st|] eqn:Hst; [|discriminate H]. cbn [bind] in H.
  destruct (elastic_files _ _ _) as [elastic|] eqn:Hel; [|discriminate H]. cbn [bind] in H.
  destruct (task_files _ _ _ _) as [tf|] eqn:Htf; [|discriminate H]. cbn [bind] in H.
  destruct (phonon_files _ _ _ _) as [[odd ph]|] eqn:Hph; [|discriminate H]. cbn [bind fst snd] in H.
  destruct (task_eqb T WANNIER); [discriminate H|]. destruct (task_eqb T SOCKET_DRIVER); [discriminate H|].
  destruct (tddft_files _ _ _) as [td|] eqn:Htd; [|discriminate H]. cbn [bind] in H.
  destruct odd; [discriminate H|]. apply ok_inj in H as <-.
  split; [apply sorted_sorted|]. pose proof (xc_iff p xc Wp Hxc) as Fxc. exists xc. split; [exact Fxc|].
  pose proof (proj1 (keyed_dict _ _ Wp)) as Hp. pose proof (proj1 (keyed_dict _ _ Wc)) as Hc.
  assert (Gd : group p "devel_code" devel) by now apply (group_iff _ Hp).
  pose proof (dev_unique p devel Wp Hdev) as Ud.
  assert (Gp : group cell "species_pot" pots) by now apply (group_iff _ Hc).
  assert (Up : forall g, group cell "species_pot" g -> g = pots) by (intros g G; apply (group_iff _ Hc) in G; congruence).
  pose proof (keyed_group _ _ _ _ Wc Gp) as Wpots.
  destruct (pots_iff first ext p Wp xc Hxc spt Hsp pots (proj2 (keyed_dict _ _ Wpots)) [] st Hst) as [Est Ist].
  rewrite Est in Hel. rewrite <- orb_assoc in Hel.
  pose proof (elastic_iff first p devel seed Wp Hdev xc _ elastic Hel) as Iel.
  pose proof (check_iff first p seed Wp xc check Hcheck) as Ich.
  pose proof (pp_iff first ext p cell devel seed Wp Wc Hdev xc pp Hpp) as Ipp.
  pose proof (options_iff first p devel seed Wp Hdev t Ht T HT xc Hxc spt Hsp) as Iop.
  pose proof (tasks_iff first p seed Wp t Ht T HT xc tf Htf) as Itf.
  pose proof (phonon_iff first p devel seed Wp Hdev t Ht T HT xc ph Hph) as Iph.
  pose proof (tddft_iff first p devel seed Wp Hdev xc _ td Htd) as Itd.
  pose proof (over_iff p "tddft_selected_state" 0 0 q Hp Eq) as Ov.
  assert (Tk : forall U k, task_name U = k -> (task_eqb T U = true <-> task p k)) by (intros U k <-; apply (is_task p Wp t Ht T HT)).
  assert (Wd : forall w, text_in (upper t) [w] = true <-> task_word p w).
  { intros w. rewrite (task_word_iff p t w Hp Ht), text_in_iff. split; [intros (x & [<-|[]] & E); exact E|intros E; exists w; cbn; auto]. }
  intros f. rewrite sorted_in, !in_app_iff, in_one, Ich, Iop, Ipp, Ist, Iel, Itf, Iph, Itd.
  rewrite !in_when, !in_one.
  assert (Epd : pon (after p) "pdos_calculate_weights" && negb (text_in (upper t) ["BANDSTRUCTURE"; "ELECTRONICSPECTROSCOPY"]%string) = true <->
    on p "pdos_calculate_weights" /\ ~ task_word p "BANDSTRUCTURE" /\ ~ task_word p "ELECTRONICSPECTROSCOPY").
  { rewrite after_on by reflexivity. rewrite andb_true_iff, (pon_iff _ Hp), negb_true_iff, <- not_true_iff_false, <- !Wd.
    unfold text_in. cbn [existsb]. rewrite !orb_true_iff. intuition discriminate. }
  rewrite Epd. rewrite orb_true_iff, (Tk EFIELD _ eq_refl), (Tk PHONON_EFIELD _ eq_refl).
  assert (Bs : task_word p "BANDSTRUCTURE" -> task p "spectral").
  { intros (t' & Hs & E). exists t', ($"BANDSTRUCTURE"). split; [exact Hs|]. split; [|cbn; tauto].
    apply same_word_iff. rewrite <- squash_upper, E. reflexivity. }
  assert (Is : task p "spectral" -> forall f, (exists l, get_spectral_files (after p) seed (is_nlxc xc) = Ok l /\ In f l) <->
    f = seed ++ $"-out.cell" \/ (on_by_default p "spectral_restart" /\ f = seed ++ $".*.spec") \/
    ((on p "write_orbitals" \/ task_word p "BANDSTRUCTURE") /\ f = seed ++ $".orbitals") \/
    ((In (KStr ($"spectral_spinvec")) (map fst devel) /\ In (KStr ($"spectral_spinvec_append")) (map fst devel)) /\ f = seed ++ $".nc_spinvec") \/
    (exists g c w, group devel "spectral" g /\ spectral_theory p c /\ (c = "DFT"%string /\ w = $"." \/ c = "TDDFT"%string /\ w = $"_tddft.") /\
      by_rule (spectral_rules p g) (fun s => seed ++ w ++ $s ++ $"_bin") f)).
  { intros Hs f0. assert (E : get_spectral_files (after p) seed (is_nlxc xc) = Ok tf).
    { apply (Tk SPECTRAL _ eq_refl) in Hs. destruct T; try discriminate Hs. exact Htf. }
    rewrite <- (spectral_iff first p devel seed Wp Hdev t Ht xc Hxc tf Hs E f0). rewrite E. split; [intros (l & El & Hi); apply ok_inj in El; now subst|eauto]. }
  assert (Im : task p "md" -> forall f, (exists l, md_files (after p) seed = Ok l /\ In f l) <->
    (written p "write_md" /\ f = seed ++ $".md") \/
    ((setting p "md_ensemble" VNone (VStr ($"nvhug")) \/ setting p "md_ensemble" VNone (VStr ($"nphug"))) /\ f = seed ++ $".hug") \/
    (extra p ["first"; "second"; "mixed"]%string /\ (f = seed ++ $".*.wfm" \/ f = seed ++ $".*.drhom")) \/
    (extra p ["second"; "mixed"]%string /\ (f = seed ++ $".*.wf2m" \/ f = seed ++ $".*.drho2m")) \/
    farm_file p seed f).
  { intros Hs f0. assert (E : md_files (after p) seed = Ok tf).
    { apply (Tk MD _ eq_refl) in Hs. destruct T; try discriminate Hs. exact Htf. }
    rewrite <- (md_iff first p seed Wp xc Hxc tf E f0). rewrite E. split; [intros (l & El & Hi); apply ok_inj in El; now subst|eauto]. }
  (* the rules, by suffix *)
  assert (R : forall c s, In (c, s) (rules p cell devel) -> c -> predicted (key_str ext) p cell seed (first xc) (seed ++ $s)).
  { intros c s Hi Hcs. apply pr_rule with devel; [exact Gd|]. exists c, s. auto. }
  assert (Fx : forall c s, In (c, s) (fixed_rules p devel) -> c -> predicted (key_str ext) p cell seed (first xc) ($s)).
  { intros c s Hi Hcs. apply pr_fixed with devel; [exact Gd|]. exists c, s. auto. }
  assert (M : forall c s, In (c, s) (md_rules p) -> c -> predicted (key_str ext) p cell seed (first xc) (seed ++ $s)).
  { intros c s Hi Hcs. apply pr_md. exists c, s. auto. }
  Ltac pick_s := match goal with |- In (?c, ?s) ((_, ?s) :: _) => left; reflexivity | _ => right; pick_s end.
  Ltac pick := first [left; reflexivity | right; pick].
  Ltac rule R s := eapply (R _ s); [unfold rules, fixed_rules, md_rules; pick|].
  split.
  - intros [-> | [K | [K | [K | [K | [K | [K | [K | [K | [K | K]]]]]]]]]].
    + rule R ".castep"%string. exact I.
    + destruct K as [[K ->]|[K ->]]; [rule R ".check"%string|rule R ".castep_bin"%string]; exact K.
    + destruct K as (c & s & Hi & Hcs & ->).
      unfold option_rules in Hi. repeat (destruct Hi as [Hi|Hi]; [injection Hi as <- <-; eapply R; [unfold rules; pick_s|tauto]|]). destruct Hi.
    + destruct K as [(K1 & K2 & K3 & ->)|[(K1 & K2 & ->)|K]].
      * rule R "_*_.pot"%string. auto.
      * rule R ".fd"%string. auto.
      * destruct K as (g & pos & ss & sp & be & x & af & y & K1 & K2 & K3 & K4 & K5 & K6 & K7 & K8 & K9 & ->). eapply pr_pot; eassumption.
    + destruct K as [K ->]. rule R ".pdos_weights"%string. exact K.
    + destruct K as [[]|(b & k & pot & th & suf & K1 & K2 & K3 & ->)]. eapply pr_otf; eassumption.
    + destruct K as [K ->]. rule R ".elastic"%string. exact K.
    + destruct K as [[K ->]|[[K K']|[[K K']|[[K K']|[[K K']|[[K K']|[K ->]]]]]]].
      * rule R ".vacuum_den"%string. exact K.
      * destruct K' as [->| ->]; [rule R ".epme"%string|rule R "-*-*-*.ep_pot"%string]; tauto.
      * destruct K' as [[K' ->]|[K' ->]]; [rule R ".geom"%string|rule R ".pes"%string]; auto.
      * apply (Is K) in K'. destruct K' as [->|[[K' ->]|[[K' ->]|[[K' ->]|(g & c & w & K1 & K2 & K3 & K4)]]]].
        -- rule R "-out.cell"%string. auto.
        -- rule R ".*.spec"%string. auto.
        -- rule R ".orbitals"%string. auto.
        -- rule R ".nc_spinvec"%string. auto.
        -- eapply pr_spectral; eassumption.
      * apply (Im K) in K'. destruct K' as [[K' ->]|[[K' ->]|[[K' [->| ->]]|[[K' [->| ->]]|(z & i & u & K1 & K2 & K3 & K4 & K5 & ->)]]]].
        -- rule R ".md"%string. auto.
        -- rule R ".hug"%string. auto.
        -- rule M ".*.wfm"%string. split; assumption.
        -- rule M ".*.drhom"%string. split; assumption.
        -- rule M ".*.wf2m"%string. split; assumption.
        -- rule M ".*.drho2m"%string. split; assumption.
        -- eapply pr_farm; eassumption.
      * destruct K' as [->|[K' [->| ->]]]; [rule R ".magres"%string|rule Fx "current.dat"%string|rule Fx "gsden.cube"%string]; auto.
      * rule R ".ts"%string. exact K.
    + destruct K as [[K ->]|[[K ->]|[[K ->]|(ph' & K1 & K2 & K3 & K4)]]].
      * rule R ".phonon"%string. exact K.
      * rule R ".phonon_dos"%string. exact K.
      * rule R "-*-*-*.ep_pot"%string. right. exact K.
      * eapply pr_born; eassumption.
    + destruct K as [K ->]. rule R ".efield"%string. tauto.
    + rewrite <- Ov in K. destruct K as [[K ->]|[[K ->]|[K ->]]]; [rule R ".tddft"%string|rule R ".td_den"%string|rule Fx "den_dump*.dat"%string]; tauto.
  - intros H. destruct H as [dev f G H|dev f G H|f H|z i u H1 H2 H3 H4 H5 H6|dev g c w f G G2 H1 H2 H3 H4|dev ph' f G G2 H1 H2 H3
      |dev g pos ss sp be x af y G H1 H2 H3 H4 H5 H6 H7 H8 H9|pots' b k pot th suf G H1 H2 H3].
    + apply Ud in G. subst dev. destruct H as (c & s & Hi & Hcs & Ef). cbv beta in Ef. rewrite <- Ov. unfold rules in Hi.
      Ltac opt H := match goal with E : _ = _ ++ list_ascii_of_string ?s |- _ => solve [right; right; left; eexists; exists s; split; [unfold option_rules; pick_s|split; [clear - H; tauto|assumption]]] end.
      repeat (destruct Hi as [Hi|Hi]; [injection Hi as <- <-; try (opt Hcs)|]); [..|destruct Hi].
      * now left.
      * skip 1. auto.
      * skip 1. auto.
      * destruct Hcs as [Hcs|Hcs]; [opt Hcs|]. skip 7. do 3 right. left. split; [auto|]. apply (Is (Bs Hcs)). tauto.
      * destruct Hcs as [Hcs|Hcs]; [opt Hcs|]. skip 7. do 3 right. left. split; [auto|]. apply (Is Hcs). tauto.
      * destruct Hcs as [Hcs|Hcs]; [opt Hcs|]. skip 9. auto.
      * skip 3. left. tauto.
      * skip 3. right. left. tauto.
      * skip 4. auto.
      * skip 6. auto.
      * skip 7. auto.
      * skip 7. auto.
      * destruct Hcs as [Hcs|Hcs]; [skip 7; auto|]. skip 8. auto.
      * skip 7. right. right. left. tauto.
      * skip 7. right. right. left. tauto.
      * destruct Hcs as [K Hcs]. skip 7. do 3 right. left. split; [exact K|]. apply (Is K). tauto.
      * destruct Hcs as [K Hcs]. skip 7. do 3 right. left. split; [exact K|]. apply (Is K). tauto.
      * destruct Hcs as [K Hcs]. skip 7. do 4 right. left. split; [exact K|]. apply (Im K). tauto.
      * destruct Hcs as [K Hcs]. skip 7. do 4 right. left. split; [exact K|]. apply (Im K). tauto.
      * skip 7. do 5 right. left. auto.
      * skip 7. do 6 right. auto.
      * skip 8. auto.
      * skip 8. auto.
      * do 10 right. auto.
      * do 10 right. auto.
    + apply Ud in G. subst dev. destruct H as (c & s & Hi & Hcs & Ef). cbv beta in Ef. rewrite <- Ov.
      destruct Hi as [Hi|[Hi|[Hi|[]]]]; injection Hi as <- <-.
      * skip 7. do 5 right. left. tauto.
      * skip 7. do 5 right. left. tauto.
      * do 10 right. auto.
    + destruct H as (c & s & Hi & Hcs & Ef). cbv beta in Ef. unfold md_rules in Hi.
      assert (K : task p "md") by (destruct Hi as [Hi|[Hi|[Hi|[Hi|[]]]]]; injection Hi as <- <-; exact (proj1 Hcs)).
      skip 7. do 4 right. left. split; [exact K|]. apply (Im K).
      assert (X : forall l, extrapolates p l -> extra p l) by (intros l Hl; exact (proj2 Hl)).
      destruct Hi as [Hi|[Hi|[Hi|[Hi|[]]]]]; injection Hi as <- <-; apply X in Hcs; tauto.
    + skip 7. do 4 right. left. split; [exact H1|]. apply (Im H1). do 4 right. exists z, i, u. auto 8.
    + apply Ud in G. subst dev. skip 7. do 3 right. left. split; [exact H1|]. apply (Is H1). do 4 right. exists g, c, w. auto.
    + apply Ud in G. subst dev. skip 8. do 3 right. exists ph'. auto.
    + apply Ud in G. subst dev. skip 3. right. right. exists g, pos, ss, sp, be, x, af, y. auto 12.
    + apply Up in G. subst pots'. skip 5. right. exists b, k, pot, th, suf. auto.
Qed.
(** ** Shape of the result *)
Lemma predict_shape first ext p cell seed l : predict first ext p cell seed = Ok l -> exists r, l = sorted_set ((seed ++ $".castep") :: r).
Proof.
  unfold predict. intros H.
  repeat (match type of H with
          | bind ?x _ = Ok _ => destruct x; [|discriminate H]; cbn [bind] in H
          end).
  destruct (task_eqb _ WANNIER); [discriminate H|]. destruct (task_eqb _ SOCKET_DRIVER); [discriminate H|].
  destruct (tddft_files _ _ _); [|discriminate H]. cbn [bind] in H.
  match type of H with (if ?b then _ else _) = _ => destruct b end; [discriminate H|]. apply ok_inj in H as <-. eexists. reflexivity.
Qed.
Lemma predict_sorted first ext p cell seed l : predict first ext p cell seed = Ok l -> StronglySorted text_lt l.
Proof. intros H. apply predict_shape in H as (r & ->). apply sorted_sorted. Qed.
Lemma predict_castep first ext p cell seed l : predict first ext p cell seed = Ok l -> In (seed ++ $".castep") l.
Proof. intros H. apply predict_shape in H as (r & ->). apply sorted_in. now left. Qed.

(** ** From the seed name *)
Lemma data_used exists_file read given file d : data_from exists_file read given file = Ok d <-> used exists_file read given file d.
Proof.
  unfold data_from, used. destruct given as [d0|].
  - split; [intros H; injection H as ->; auto|]. intros [H|[[H _]|[H _]]]; congruence.
  - destruct (exists_file file).
    + destruct (read file) as [[|d0 ds]|]; cbn [bind]; split; try discriminate.
      * intros [H|[(_ & _ & rest & H)|(_ & H & _)]]; congruence.
      * intros H. injection H as ->. right. left. eauto.
      * intros [H|[(_ & _ & rest & H)|(_ & H & _)]]; congruence.
      * intros [H|[(_ & _ & rest & H)|(_ & H & _)]]; congruence.
    + split; [intros H; injection H as <-; auto|]. intros [H|[(_ & H & _)|(_ & _ & H)]]; congruence.
Qed.
Lemma with_suffix_ok p suf q : with_suffix p suf = Ok q ->
  exists dirs name, pt_parts p = dirs ++ [name] /\ q = {| pt_root := pt_root p; pt_parts := dirs ++ [fst (stem_suffix name) ++ suf] |} /\ path_name p = name.
Proof.
  unfold with_suffix, path_stem, path_name. destruct (pt_parts p) as [|x l] eqn:E; [discriminate|].
  destruct (isempty _); [discriminate|]. intros H. injection H as <-.
  exists (removelast (x :: l)), (last (x :: l) []). split; [now apply app_removelast_last|]. auto.
Qed.
Lemma file_ok given typ p file :
  match given with Some f => Ok (path_str (path_of f)) | None => rmap path_str (with_suffix p typ) end = Ok file ->
  (exists f r c, given = Some f /\ denotes f r c /\ file = place r c) \/
  (given = None /\ exists q, with_suffix p typ = Ok q /\ file = place (pt_root q) (pt_parts q)).
Proof.
  destruct given as [f|]; intros H.
  - injection H as <-. left. exists f, (pt_root (path_of f)), (pt_parts (path_of f)). split; [reflexivity|]. split; [apply denotes_total|apply path_str_place].
  - destruct (with_suffix p typ) as [q|] eqn:E; [|discriminate]. injection H as <-. right. split; [reflexivity|]. exists q. split; [reflexivity|apply path_str_place].
Qed.
Theorem generated_iff first ext exists_file read seed pf cf pd cd l :
  get_generated_files first ext exists_file read seed pf cf pd cd = Ok l ->
  exists root dirs name base typ stem typ' pfile cfile p cell,
    denotes seed root (dirs ++ [name]) /\ file_type name base typ /\ file_type base stem typ' /\
    file_used pf root dirs base ".param" pfile /\ file_used cf root dirs base ".cell" cfile /\
    used exists_file read pd pfile p /\ used exists_file read cd cfile cell /\
    StronglySorted text_lt l /\ In (stem ++ $".castep") l /\
    (well_keyed (VDict false p) -> well_keyed (VDict false cell) ->
     exists xc, (forall r, In r xc <-> functional p r) /\
       forall f, In f l <-> predicted (key_str ext) p cell stem (first xc) f).
Proof.
  unfold get_generated_files. set (path := path_of seed). intros H.
  destruct (match pf with Some f => _ | None => _ end) as [pfile|] eqn:Hpf; [|discriminate H]. cbn [bind] in H.
  destruct (match cf with Some f => _ | None => _ end) as [cfile|] eqn:Hcf; [|discriminate H]. cbn [bind] in H.
  destruct (data_from _ _ pd pfile) as [p|] eqn:Hp; [|discriminate H]. cbn [bind] in H.
  destruct (data_from _ _ cd cfile) as [cell|] eqn:Hc; [|discriminate H]. cbn [bind] in H.
  destruct (with_suffix path []) as [src|] eqn:Hs; [|discriminate H]. cbn [bind] in H.
  destruct (with_suffix_ok _ _ _ Hs) as (dirs & name & Hd & -> & Hn).
  destruct (stem_suffix name) as [base sf] eqn:Es.
  assert (exists typ, file_type name base typ) as [typ Ft].
  { destruct (file_type_total name) as (b & e & F). assert (b = base) as -> by (apply file_type_iff in F; congruence). eauto. }
  destruct (file_type_total base) as (stem & typ' & Ft').
  assert (Est : path_stem {| pt_root := pt_root path; pt_parts := dirs ++ [base ++ []] |} = stem).
  { unfold path_stem, path_name. cbn [pt_parts]. rewrite last_last, app_nil_r. apply file_type_iff in Ft'. now rewrite Ft'. }
  cbn [fst] in H. rewrite Est in H.
  exists (pt_root path), dirs, name, base, typ, stem, typ', pfile, cfile, p, cell.
  assert (Fu : forall g ty f, match g with Some f => Ok (path_str (path_of f)) | None => rmap path_str (with_suffix path ($ty)) end = Ok f ->
    file_used g (pt_root path) dirs base ty f).
  { intros g ty f K. apply file_ok in K as [K|(-> & q & K & ->)]; [now left|]. right. split; [reflexivity|].
    destruct (with_suffix_ok _ _ _ K) as (dirs' & name' & Hd' & -> & Hn'). cbn [pt_root pt_parts]. rewrite Hd in Hd'. apply app_inj_tail in Hd' as [<- <-].
    now rewrite Es. }
  split; [rewrite <- Hd; apply denotes_total|].
  split; [exact Ft|]. split; [exact Ft'|]. split; [exact (Fu _ _ _ Hpf)|]. split; [exact (Fu _ _ _ Hcf)|].
  split; [now apply data_used|]. split; [now apply data_used|].
  split; [|split].
  - exact (predict_sorted _ _ _ _ _ _ H).
  - exact (predict_castep _ _ _ _ _ _ H).
  - intros W1 W2. exact (proj2 (predict_iff _ _ _ _ _ _ W1 W2 H)).
Qed.

(** ** Sensible input gives an answer *)
Lemma mapM_total {A B} (f : A -> result B) l : (forall x, In x l -> exists y, f x = Ok y) -> exists ys, mapM f l = Ok ys.
Proof.
  induction l as [|x l IH]; intros H; [now exists []|]. destruct (H x (or_introl eq_refl)) as [y E]. destruct IH as [ys E']; [intros; apply H; now right|].
  exists (y :: ys). cbn [mapM]. fold (mapM f l). now rewrite E, E'.
Qed.
Section Total.
  Context (first : list text -> text) (ext : key -> text) (p cell : data) (seed : text).
  Context (Wp : well_keyed (VDict false p)) (Wc : well_keyed (VDict false cell)) (S : sensible p cell).
  Let Hp : NoDup (map fst p) := proj1 (keyed_dict _ _ Wp).
  Let Hc : NoDup (map fst cell) := proj1 (keyed_dict _ _ Wc).
  Lemma word_total d k dflt : NoDup (map fst d) -> (exists t, says d k dflt t) -> exists t, as_str (pget d k (VStr ($dflt))) = Ok t.
  Proof. intros Hd (t & H). exists t. now apply (says_iff _ Hd). Qed.
  Lemma num_total d k z : NoDup (map fst d) -> (exists v q, setting d k (VInt z) v /\ number v q) -> exists q, as_num (pget d k (VInt z)) = Ok q.
  Proof. intros Hd (v & q & H & N). exists q. apply (setting_iff _ Hd) in H. rewrite H. now apply num_iff. Qed.
  Theorem predict_total : exists l, predict first ext p cell seed = Ok l.
  Proof.
    destruct S as [(w & Hw & Nw & Ns) Wxc Wsp Nt (dev & Gd & Hdv) Hx Hck Hmd Hspec Hpos (pots & Gpots & Hpots)].
    unfold predict.
    destruct Hw as (t & u & Ht & Hsame & Hu). apply (says_iff _ Hp) in Ht. rewrite Ht. cbn [bind].
    assert (HT : exists T, enum_call task_members (VStr (upper t)) = Ok T).
    { cbn [enum_call]. apply same_word_iff in Hsame. rewrite squash_upper, Hsame. apply member_names in Hu as (T & HT & _).
      destruct (dget str_eqb task_members u) as [T'|] eqn:E; [eauto|]. exfalso. clear -HT E. unfold task_members in *.
      revert E. cbn [map] in HT. repeat (destruct HT as [HT|HT]; [injection HT as <- <-; discriminate|]). destruct HT. }
    destruct HT as [T HT]. rewrite HT. cbn [bind].
    assert (Tk : forall U k, task_name U = k -> (task_eqb T U = true <-> task p k)) by (intros U k <-; apply (is_task p Wp t Ht T HT)).
    assert (TT : task_name T = w).
    { apply (task_iff p T t Hp Ht HT). exists t, u. split; [now apply (says_iff _ Hp)|auto]. }
    assert (Hxc : exists xc, get_xc_info p = Ok xc).
    { unfold get_xc_info. destruct (word_total p _ _ Hp Wxc) as [f ->]. cbn [bind].
      change (truth (pget p "xc_definition" VNone)) with (pon p "xc_definition").
      destruct (pon p "xc_definition") eqn:Eo; [|cbn [bind]; eauto].
      apply (pon_iff _ Hp) in Eo. destruct (Hx Eo) as (b & its & b' & fs & Hs & Hi & Hk).
      pose proof Hs as Hs'. apply (setting_iff _ Hp) in Hs. rewrite Hs.
      assert (Wi : well_keyed (VDict b its)).
      { destruct Hs' as [Hs'|[_ K]]; [|discriminate]. exact (proj2 (keyed_dict _ _ Wp) _ _ Hs'). }
      apply (entry_dget _ _ _ (proj1 (keyed_dict _ _ Wi))) in Hi. rewrite Hi.
      destruct (mapM_total lower_key (keys fs)) as [ns ->]; [|cbn [bind]; eauto].
      intros k Hin. apply in_map_iff in Hin as ((k' & v) & <- & Hin). destruct (Hk _ _ Hin) as [n ->]. cbn. eauto. }
    destruct Hxc as [xc Hxc]. rewrite Hxc. cbn [bind].
    destruct (word_total p _ _ Hp Wsp) as [spt Hsp]. rewrite Hsp. cbn [bind].
    pose proof Gd as Gd'. apply (group_iff _ Hp) in Gd. rewrite Gd. cbn [bind].
    pose proof (keyed_group _ _ _ _ Wp Gd') as Wd. pose proof (proj1 (keyed_dict _ _ Wd)) as Hd.
    destruct (num_total p _ _ Hp Nt) as [q Eq]. rewrite Eq. cbn [rmap bind].
    change (if pon p "write_none" then silence p else p) with (after p).
    assert (Ech : exists c, check_files (pget (after p) "write_checkpoint" (VStr ($"ALL"))) seed = Ok c).
    { rewrite after_pget. cbn [existsb six String.eqb]. rewrite andb_true_r. destruct (pon p "write_none"); [exists []; reflexivity|].
      destruct Hck as (v & Hv & K). apply (setting_iff _ Hp) in Hv. rewrite Hv. unfold check_files.
      destruct K as [->|[([] & ->)|(s & x & -> & E & Hin)]]; try (eexists; reflexivity).
      rewrite E. repeat (destruct Hin as [<-|Hin]; [eexists; reflexivity|]). destruct Hin. }
    destruct Ech as [check ->]. cbn [bind].
    assert (Epp : exists c, pp_files ext dev cell seed = Ok c).
    { unfold pp_files. destruct (pon dev "_pp" && truth (pget dev "pp" VNone)) eqn:Eb; [|eauto]. apply andb_true_iff in Eb as [_ Eb].
      destruct (proj1 Hdv "pp"%string ltac:(cbn; tauto)) as (g & b & G).
      assert (E : exists g', pget dev "pp" VNone = VDict b g').
      { destruct G as [G|[G _]].
        - apply (entry_dget _ _ _ Hd) in G. unfold pget. rewrite G. eauto.
        - apply absent_dget in G. unfold pget in Eb. rewrite G in Eb. discriminate. }
      destruct E as [g' E]. rewrite E. cbn [as_dict bind]. destruct (pon g' "pot_print"); [|cbn [bind]; eauto].
      destruct (isempty cell) eqn:Ec; [cbn [bind]; eauto|]. destruct Hpos as (pos & b' & Gp & Hk).
      apply (setting_iff _ Hc) in Gp. rewrite Gp.
      destruct (mapM_total species_of (keys pos)) as [ns ->]; [|cbn [bind]; eauto].
      intros k Hin. apply in_map_iff in Hin as ((k' & v) & <- & Hin). destruct (Hk _ _ Hin) as [s Es]. exists s. now apply species_iff. }
    destruct Epp as [pp ->]. cbn [bind].
    apply (group_iff _ Hc) in Gpots. rewrite Gpots. cbn [bind].
    assert (Est : forall out, exists st, foldM (pot_files first ext xc (meets xc ["ms2"; "rscan"; "r2scan"; "libxc_mgga"; "libxc_hyb_mgga"]%string)
      (str_eqb (upper spt) ($"VECTOR") || pon p "spin_orbit_coupling" || pon p "spin_polarised" || pon p "spin_polarized") (after p)) pots (true, out) = Ok st).
    { clear Gpots. induction pots as [|[k v] pots IH]; intros out; [cbn; eauto|]. cbn [foldM].
      destruct (Hpots k v (or_introl eq_refl)) as [(s & ->)|((b & d & ->) & (r & Hr))].
      - cbn [pot_files snd bind]. apply IH. intros k0 v0 H0. apply (Hpots k0). now right.
      - cbn [pot_files snd as_dict]. assert (Eth : exists th, theory_of first xc = Ok th).
        { unfold theory_of. match goal with |- context [if ?b then _ else _] => destruct b; [eexists; reflexivity|] end.
          match goal with |- context [if ?b then _ else _] => destruct b; [eexists; reflexivity|] end.
          apply (xc_iff p xc Wp Hxc) in Hr. destruct (isempty xc) eqn:Ei; [destruct xc; [destruct Hr|discriminate Ei]|]. eexists. reflexivity. }
        destruct Eth as [th ->]. cbn [bind]. apply IH. intros k0 v0 H0. apply (Hpots k0). now right. }
    destruct (Est []) as [st ->]. cbn [bind]. clear Est.
    assert (Eel : forall b, exists c, elastic_files dev seed b = Ok c).
    { intros b. unfold elastic_files. destruct (_ || _); [|eauto]. destruct (proj1 Hdv "elastic"%string ltac:(cbn; tauto)) as (g & G).
      apply (group_iff _ Hd) in G. rewrite G. cbn [bind]. eauto. }
    destruct (Eel (meets xc ["ms2"; "rscan"; "r2scan"; "libxc_mgga"; "libxc_hyb_mgga"]%string || fst st ||
        (str_eqb (upper spt) ($"VECTOR") || pon p "spin_orbit_coupling" || pon p "spin_polarised" || pon p "spin_polarized") ||
        meets xc ["hf"; "hf-lda"; "shf"; "sx-lda"; "shf-lda"; "pbe0"; "b3lyp"; "hse03"; "hse06"; "spbe0"]%string)) as [el Eel'].
    rewrite Eel'. cbn [bind].
    assert (Etf : exists c, task_files T (after p) seed (is_nlxc xc) = Ok c).
    { destruct T; cbn [task_files]; try (eauto; fail).
      - (* MD *) assert (K : task p "md") by (apply (Tk MD _ eq_refl); reflexivity). destruct (Hmd K) as ((v & Hv & Kv) & We & Ws & Wm & Nb & Nn & (z & Nf)).
        unfold md_files. rewrite !(after_keep p "md_ensemble"), !(after_keep p "md_extrap"), !(after_keep p "opt_strategy"),
          !(after_keep p "opt_strategy_bias"), !(after_keep p "metals_method"), !(after_keep p "md_num_beads"), !(after_keep p "num_farms") by reflexivity.
        apply (setting_iff _ Hp) in Hv. rewrite Hv. assert (Hh : exists h, in_texts v ["nvhug"; "nphug"]%string = Ok h).
        { destruct Kv as [->|(s & ->)]; cbn; eauto. }
        destruct Hh as [h ->]. cbn [bind].
        destruct (word_total p _ _ Hp We) as [te ->]. destruct (word_total p _ _ Hp Ws) as [ts ->]. destruct (word_total p _ _ Hp Wm) as [tm ->].
        destruct (num_total p _ _ Hp Nb) as [qb ->]. destruct (num_total p _ _ Hp Nn) as [qn ->]. cbn [rmap bind].
        apply (setting_iff _ Hp) in Nf. rewrite Nf. cbn [as_num bind].
        assert (Ef : exists c, (if gt_int qn 1 then if gt_int (inject_Z z) 1 then
            match pget p "num_farms" VNone with VInt z => Ok (map (fun i => seed ++ $"_farm" ++ farm_no i ++ $".castep") (seq 0 (Z.to_nat z))) | _ => Err TypeError end
            else Ok [] else Ok []) = Ok c).
        { destruct (gt_int qn 1); [|eauto]. destruct (gt_int (inject_Z z) 1) eqn:Eg; [|eauto].
          unfold pget in Nf |- *. destruct (dget key_eqb p (KStr ($"num_farms"))); [subst; eauto|]. injection Nf as <-. discriminate Eg. }
        destruct Ef as [c Ef]. destruct (str_eqb (lower ts) ($"memory")); cbn [bind]; rewrite Ef; cbn [bind]; eauto.
      - (* spectral *) assert (K : task p "spectral") by (apply (Tk SPECTRAL _ eq_refl); reflexivity). destruct (Hspec K) as ((c & Hth) & (c' & Htk) & Hno).
        unfold get_spectral_files. rewrite !(after_keep p "devel_code"), !(after_keep p "task"), !(after_keep p "spectral_theory"),
          !(after_keep p "spectral_task") by reflexivity.
        rewrite Ht, Gd. cbn [bind]. pose proof Hth as (v & Hv & Cv). pose proof Htk as (v' & Hv' & Cv').
        apply (setting_iff _ Hp) in Hv. apply (setting_iff _ Hp) in Hv'. rewrite Hv, Hv'.
        change ["TDDFT"; "DFT"]%string with (map (@Datatypes.fst _ _) [("TDDFT", TDDFT); ("DFT", DFT)]%string) in Cv.
        apply choice_iff in Cv; [|repeat (constructor; [cbn; intuition discriminate|]); constructor|cbn; intuition congruence].
        change ["CORELOSS"; "BANDSTRUCTURE"; "OPTICS"; "DOS"; "ALL"]%string with
          (map (@Datatypes.fst _ _) [("CORELOSS", CORELOSS); ("BANDSTRUCTURE", BANDSTRUCTURE); ("OPTICS", OPTICS); ("DOS", DOS); ("ALL", ALL)]%string) in Cv'.
        apply choice_iff in Cv'; [|repeat (constructor; [cbn; intuition discriminate|]); constructor|cbn; intuition congruence].
        destruct Cv as (th & Eth & Ith). destruct Cv' as (tk & Etk & Itk). unfold spectral_theory_members, spectral_task_members. rewrite Eth, Etk. cbn [bind].
        assert (Ec : exists x, spec_calc th tk (is_nlxc xc) = Ok x).
        { destruct th, tk; cbn [spec_calc]; eauto.
          - exfalso. destruct Ith as [E|[E|[]]]; [injection E as <-|discriminate E]. destruct Itk as [E|[E|[E|[E|[E|[]]]]]]; try discriminate E. injection E as <-.
            now destruct (Hno Htk).
          - destruct (is_nlxc xc) eqn:En; [|eauto]. exfalso. apply (nlxc_iff p Wp xc Hxc) in En.
            destruct Itk as [E|[E|[E|[E|[E|[]]]]]]; try discriminate E. injection E as <-. now destruct (Hno Htk). }
        destruct Ec as [[[e o] d] ->]. cbn [bind].
        destruct (proj1 Hdv "spectral"%string ltac:(cbn; tauto)) as (g & G). apply (group_iff _ Hd) in G. rewrite G. cbn [bind]. eauto. }
    destruct Etf as [tf Etf]. change (meets xc ["hf"; "hf-lda"; "shf"; "sx-lda"; "shf-lda"; "pbe0"; "b3lyp"; "hse03"; "hse06"; "spbe0"]%string) with (is_nlxc xc).
    rewrite Etf. cbn [bind].
    assert (Eph : exists c, phonon_files T (after p) dev seed = Ok (false, c)).
    { unfold phonon_files. destruct (task_eqb T PHONON || task_eqb T PHONON_EFIELD); [|eauto]. destruct (proj1 Hdv "phonon"%string ltac:(cbn; tauto)) as (g & G).
      pose proof (keyed_group _ _ _ _ Wd G) as Wg. pose proof (proj1 (keyed_dict _ _ Wg)) as Hg.
      destruct (proj2 Hdv _ G) as (v & Hv & Kv).
      apply (group_iff _ Hd) in G. rewrite G. cbn [bind]. apply (setting_iff _ Hg) in Hv. rewrite Hv.
      destruct (truth v) eqn:Ev; [|cbn [bind fst snd]; (eexists; reflexivity)].
      destruct Kv as [Kv|(s & ->)]; [apply truth_iff in Ev; contradiction|]. cbn [bind fst snd]. (eexists; reflexivity). }
    destruct Eph as [ph ->]. cbn [bind fst snd].
    assert (E1 : task_eqb T WANNIER = false) by (destruct T; try reflexivity; exfalso; now apply Nw).
    assert (E2 : task_eqb T SOCKET_DRIVER = false) by (destruct T; try reflexivity; exfalso; now apply Ns).
    rewrite E1, E2.
    assert (Etd : forall b, exists c, tddft_files b dev seed = Ok c).
    { intros b. unfold tddft_files. destruct b; [|eauto]. destruct (proj1 Hdv "tddft"%string ltac:(cbn; tauto)) as (g & G).
      apply (group_iff _ Hd) in G. rewrite G. cbn [bind]. eauto. }
    destruct (Etd (gt_int q 0)) as [td ->]. cbn [bind]. eauto.
  Qed.
End Total.
