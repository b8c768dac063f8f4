(** Facts: a run holds only what was asked for. *)
From Verif Require Import PyBase PyFacts PyVal Regex CastepRes StrUtil TypeConv DictUtil DictFacts Stream StreamFacts Header TextParsers TextFiles
  CellParam CastepBlocks CastepNum CastepRows Pspot CastepRest SpecCastepFile CastepFile CastepFileFacts.
Local Open Scope list_scope.
Local Open Scope nat_scope.

Lemma filt_eqb_eq a b : filt_eqb a b = true <-> a = b.
Proof. destruct a, b; cbn; split; intros H; try reflexivity; discriminate. Qed.
Lemma has_in F x : has F x = true <-> In x F.
Proof.
  unfold has. rewrite existsb_exists. split.
  - intros (y & Hy & E). apply filt_eqb_eq in E. now subst.
  - intros H. exists x. split; [exact H|now apply filt_eqb_eq].
Qed.
Definition good (F : list filt) (r : dict) : Prop := Forall (permitted F) r.
Lemma dset_forall (P : key * pyval -> Prop) d k v : Forall P d -> P (k, v) -> Forall P (dset key_eqb d k v).
Proof.
  intros H Hk. induction H as [|[k' v'] d Hd H IH]; cbn [dset]; [now repeat constructor|].
  destruct (key_eqb k' k) eqn:E; constructor; auto. apply TextParsersFacts.key_eqb_eq in E. now subst.
Qed.
Lemma ddel_forall (P : key * pyval -> Prop) d k : Forall P d -> Forall P (ddel key_eqb d k).
Proof. induction 1 as [|[k' v'] d Hd H IH]; cbn [ddel]; [constructor|]. destruct (key_eqb k' k); [exact H|now constructor]. Qed.
Lemma update_forall (P : key * pyval -> Prop) e : forall d, Forall P d -> Forall P e -> Forall P (update d e).
Proof.
  unfold update, dupdate. induction e as [|[k v] e IH]; intros d Hd He; cbn [fold_left]; [exact Hd|].
  inversion_clear He. apply IH; [apply dset_forall; assumption|assumption].
Qed.
Lemma filter_forall {A} (P : A -> Prop) f l : Forall P l -> Forall P (filter f l).
Proof. intros H. apply Forall_forall. intros x Hx. apply filter_In in Hx as [Hx _]. rewrite Forall_forall in H. auto. Qed.

(** ** The ways of storing *)
Lemma good_set F r k v : good F r -> asked F k -> good F (dset key_eqb r k v).
Proof. intros H Hk. apply dset_forall; [exact H|now left]. Qed.
Lemma good_append F r k v r' : good F r -> asked F k -> append_to r k v = Ok r' -> good F r'.
Proof.
  unfold append_to. intros H Hk E. destruct (dget key_eqb r k) as [[]|]; try discriminate; injection E as <-; now apply good_set.
Qed.
Lemma good_late F r k f r' : good F r -> asked F k -> append_late r k f = Ok r' -> good F r'.
Proof.
  unfold append_late. intros H Hk E. destruct (dget key_eqb r k) as [[]|]; try discriminate;
  (destruct f; cbn [bind] in E; [|discriminate]; now apply (good_append F) in E).
Qed.
Lemma good_with F df e r k f r' : good F r -> asked F k -> with_dict df e r k f = Ok r' -> good F r'.
Proof.
  unfold with_dict. intros H Hk E. destruct (dget key_eqb r k) as [[]|]; try discriminate;
  (destruct (f _); cbn [bind] in E; [|discriminate]; injection E as <-; now apply good_set).
Qed.
Lemma good_ensure F r k v : good F r -> asked F k -> good F (ensure r k v).
Proof. unfold ensure. intros H Hk. destruct (dmem key_eqb r k); [exact H|now apply good_set]. Qed.
Lemma good_fold F {A} (f : dict -> A -> result dict) l : (forall r x r', good F r -> f r x = Ok r' -> good F r') ->
  forall r r', good F r -> foldM f l r = Ok r' -> good F r'.
Proof.
  intros Hf. induction l as [|x l IH]; intros r r' H E; cbn [foldM] in E; [injection E as <-; exact H|].
  destruct (f r x) eqn:Ex; cbn [bind] in E; [|discriminate]. eapply IH; [|exact E]. eapply Hf; eassumption.
Qed.

(** ** Free names have numbers *)
Definition floats (d : dict) : Prop := Forall (fun e => a_float (snd e)) d.
Lemma finalisation_floats ls d : process_finalisation ls = Ok d -> floats d.
Proof.
  unfold process_finalisation. assert (G : forall ls d d', floats d -> foldM finalisation_line ls d = Ok d' -> floats d').
  { clear. induction ls as [|l ls IH]; intros d d' H E; cbn [foldM] in E; [injection E as <-; exact H|].
    destruct (finalisation_line d l) as [d1|] eqn:E1; cbn [bind] in E; [|discriminate]. apply IH in E; [exact E|].
    unfold finalisation_line in E1. destruct (isempty (strip l)); [injection E1 as <-; exact H|].
    destruct (split_two "=" l) as [[k v]|]; cbn [bind] in E1; [|discriminate]. unfold float_at in E1.
    destruct (item (get_numbers v) 0) as [w|]; cbn [bind] in E1; [|discriminate]. destruct (py_float_builtin w); cbn [rmap bind] in E1; [|discriminate].
    injection E1 as <-. apply dset_forall; [exact H|]. cbn. now eexists. }
  intros E. eapply G; [|exact E]. constructor.
Qed.
Lemma dict_of_floats its : floats its -> floats (dict_of key_eqb its).
Proof. intros H. apply update_forall; [constructor|exact H]. Qed.
Lemma mapM_forall {A B} (f : A -> result B) (P : B -> Prop) : (forall a b, f a = Ok b -> P b) -> forall l l', mapM f l = Ok l' -> Forall P l'.
Proof.
  intros H. induction l as [|x l IH]; intros l' E; cbn [mapM] in E; [injection E as <-; constructor|].
  destruct (f x) eqn:Ex; cbn [bind] in E; [|discriminate]. destruct (mapM f l) eqn:El; cbn [bind] in E; [|discriminate].
  injection E as <-. constructor; [eapply H; eassumption|now apply IH].
Qed.
Lemma md_floats ls d : process_md_block ls = Ok d -> floats d.
Proof.
  unfold process_md_block, dict_rows. intros E.
  destruct (mapM _ (matches (re_search MD_RE) ls)) as [its|] eqn:E1; cbn [rmap bind] in E; [|discriminate]. injection E as <-.
  assert (G : floats its).
  { eapply mapM_forall; [|exact E1]. intros x [k v] Ex. unfold float_group in Ex. destruct (py_float_builtin _); cbn in Ex; [|discriminate].
    injection Ex as <- <-. cbn. now eexists. }
  apply dict_of_floats in G. apply dict_of_floats. apply Forall_map. exact G.
Qed.

(** ** The branches *)
Definition good_st (F : list filt) (st : cstate) : Prop := good F (s_run st) /\ Forall (good F) (s_runs st).
Definition keeps (F : list filt) (act : action) : Prop := forall line b rest st st' rest', good_st F st -> act line b rest st = Ok (st', rest') -> good_st F st'.
Definition rule_keeps (F : list filt) (r : rule) : Prop := match r with RBlock _ _ _ _ act => keeps F act | RLine _ act => keeps F act end.
Lemma rules_keep F rs : Forall (rule_keeps F) rs -> forall line rest st st' rest', good_st F st -> try_rules rs line rest st = Ok (st', rest') ->
  good_st F st'.
Proof.
  intros H line. induction H as [|r rs Hr H IH]; intros rest st st' rest' G E.
  - cbn in E. injection E as <- <-. exact G.
  - destruct r as [s e n eof act|t act]; cbn [try_rules] in E.
    + unfold if_block in E. destruct (l_from_re line rest s e n eof) as [[b|x] r'] eqn:Q; [|discriminate].
      destruct (l_bool b); [exact (Hr _ _ _ _ _ _ G E)|exact (IH _ _ _ _ G E)].
    + destruct (t line); [exact (Hr _ _ _ _ _ _ G E)|exact (IH _ _ _ _ G E)].
Qed.
Lemma keeps_wanted F fs act : ((exists f, In f fs /\ In f F) -> keeps F act) -> keeps F (wanted F fs act).
Proof.
  intros H line b rest st st' rest' G E. unfold wanted in E. destruct (existsb (has F) fs) eqn:Q; [|injection E as <- <-; exact G].
  apply existsb_exists in Q as (f & Hf & Q). apply has_in in Q. refine (H _ _ _ _ _ _ _ G E). eauto.
Qed.
Lemma keeps_only F f act : (In f F -> keeps F act) -> keeps F (wanted F [f] act).
Proof. intros H. apply keeps_wanted. intros (g & [<-|[]] & Hg). auto. Qed.
Lemma keeps_run F f : (forall line b r r', good F r -> f line b r = Ok r' -> good F r') -> keeps F (to_run f).
Proof.
  intros H line b rest st st' rest' [G1 G2] E. unfold to_run, in_run in E. destruct (f line b (s_run st)) as [r|] eqn:Q; cbn in E; [|discriminate].
  injection E as <- <-. split; [cbn; eapply H; eassumption|exact G2].
Qed.
Lemma keeps_put F k f : asked F (kstr k) -> keeps F (put k f).
Proof. intros H. apply keeps_run. intros line b r r' G E. destruct (f b); cbn in E; [|discriminate]. injection E as <-. now apply good_set. Qed.
Lemma keeps_put_line F k f : asked F (kstr k) -> keeps F (put_line k f).
Proof. intros H. apply keeps_run. intros line b r r' G E. destruct (f line); cbn in E; [|discriminate]. injection E as <-. now apply good_set. Qed.
Lemma keeps_add F k f : asked F (kstr k) -> keeps F (add k f).
Proof. intros H. apply keeps_run. intros line b r r' G E. now apply (good_late F) in E. Qed.
Lemma keeps_add_val F k f : asked F (kstr k) -> keeps F (add_val k f).
Proof. intros H. apply keeps_run. intros line b r r' G E. destruct (f b); cbn in E; [|discriminate]. now apply (good_append F) in E. Qed.
Ltac member := repeat first [left; reflexivity | right].
Ltac asked_tac := match goal with |- asked _ (kstr ?n) =>
  exists n; let a := eval vm_compute in (match find (fun p => String.eqb (fst p) n) owners with Some (_, a) => a | None => [] end) in exists a end;
  match goal with |- exists fs, _ /\ In (_, ?a) _ /\ _ /\ _ => first
   [ match a with ?x :: _ => exists x end; split; [reflexivity|]; split; [unfold owners; member|]; split; [member|]; cbn; solve [intuition (subst; assumption)]
   | match a with _ :: ?x :: _ => exists x end; split; [reflexivity|]; split; [unfold owners; member|]; split; [member|]; cbn; solve [intuition (subst; assumption)] ] end.
Lemma asked_energies F : asked F (kstr "energies"). Proof. asked_tac. Qed.
Lemma asked_geom F : asked F (kstr "geom_opt"). Proof. asked_tac. Qed.
Ltac step1 E := match type of E with
  | bind ?x _ = Ok _ => let y := fresh "y" in let Q := fresh "Q" in destruct x as [y|] eqn:Q; cbn [bind] in E; [|discriminate E]
  | match ?x with (_, _) => _ end = Ok _ => destruct x
  | match ?x with _ => _ end = Ok _ => let Q := fresh "Q" in destruct x eqn:Q; try discriminate E
  end.
Lemma keeps_compiled F : keeps F (compiled_for F).
Proof.
  intros line b rest st st' rest' [G1 G2] E. unfold compiled_for in E.
  set (runs := match s_run st with [] => s_runs st | _ => _ end) in E.
  assert (G : Forall (good F) runs). { unfold runs. destruct (s_run st); [exact G2|]. apply Forall_app. split; [exact G2|]. constructor; [exact G1|constructor]. }
  destruct (has F F_SYS_INFO) eqn:Q.
  - apply has_in in Q. step1 E. injection E as <- <-. split; [|exact G]. cbn. constructor; [|constructor]. left. cbn [fst]. asked_tac.
  - injection E as <- <-. split; [constructor|exact G].
Qed.
Lemma good_floats F r d : good F r -> floats d -> (In F_SYS_INFO F \/ In F_MD F \/ In F_MD_SUMMARY F) -> good F (update r d).
Proof.
  intros H Hd Hf. apply update_forall; [exact H|]. eapply Forall_impl; [|exact Hd]. intros e He. right. left. split; [exact He|exact Hf].
Qed.
Lemma keeps_finalisation F : keeps F (finalisation F).
Proof.
  intros line b rest st st' rest' [G1 G2] E. unfold finalisation in E. destruct (has F F_SYS_INFO) eqn:Q; [|injection E as <- <-; now split].
  apply has_in in Q. step1 E. unfold in_run in E. cbn [bind] in E. injection E as <- <-. split; [|exact G2]. cbn [s_run].
  apply good_floats; [exact G1|now apply finalisation_floats in Q0|now left].
Qed.
Lemma keeps_warning F : In F_SYS_INFO F -> keeps F warning_line.
Proof.
  intros HF line b rest st st' rest' [G1 G2] E. unfold warning_line in E. destruct (re_match WARNING_RE line); [|injection E as <- <-; now split].
  destruct (warning_lines _ _ _ rest) as [w r]. unfold in_run in E. step1 E. injection E as <- <-.
  destruct (append_to (s_run st) _ _) eqn:Q1; cbn in Q; [|discriminate]. injection Q as <-. split; [|exact G2]. cbn [s_run].
  eapply good_append; [exact G1| |exact Q1]. asked_tac.
Qed.
Lemma keeps_title F : In F_PARAMETERS F -> keeps F title_line.
Proof.
  intros HF line b rest st st' rest' [G1 G2] E. unfold title_line in E. destruct rest; cbn in E; [discriminate|]. injection E as <- <-.
  split; [|exact G2]. cbn [s_run]. apply good_set; [exact G1|]. asked_tac.
Qed.
Lemma keeps_applied F : In F_PARAMETERS F -> keeps F applied_field.
Proof.
  intros HF line b rest st st' rest' [G1 G2] E. unfold applied_field in E. destruct rest; cbn [next_line bind] in E; [discriminate|].
  step1 E. cbn in E. injection E as <- <-. split; [|exact G2]. cbn [s_run]. apply good_set; [exact G1|]. asked_tac.
Qed.
Lemma good_species F r s f r' : In F_SPECIES_PROPS F -> good F r -> species r s f = Ok r' -> good F r'.
Proof. intros HF G E. eapply good_with; [exact G| |exact E]. asked_tac. Qed.
Lemma keeps_ps F : In F_SPECIES_PROPS F -> keeps F (to_run ps_energy).
Proof. intros HF. apply keeps_run. intros line b r r' G E. unfold ps_energy in E. step1 E. destruct y. now apply (good_species F) in E. Qed.
Lemma keeps_props F f : In F_SPECIES_PROPS F -> (forall r ws r', f r ws = Ok r' -> exists s g, species r s g = Ok r') ->
  keeps F (to_run (fun _ => species_props f)).
Proof.
  intros HF H. apply keeps_run. intros line b r r' G E. unfold species_props in E. eapply good_fold; [| |exact E]; [|apply good_ensure; [exact G|asked_tac]].
  intros r1 x r2 G1 E1. apply H in E1 as (s & g & E1). now apply (good_species F) in E1.
Qed.
Lemma mass_is r ws r' : mass r ws = Ok r' -> exists s g, species r s g = Ok r'.
Proof. unfold mass. intros E. destruct ws as [|k [|v [|]]]; try discriminate. step1 E. eauto. Qed.
Lemma quadrupole_is r ws r' : quadrupole r ws = Ok r' -> exists s g, species r s g = Ok r'.
Proof. unfold quadrupole. intros E. destruct ws as [|k [|v ws]]; try discriminate. step1 E. eauto. Qed.
Lemma pseudopot_is F r ws r' : pseudopot F r ws = Ok r' -> exists s g, species r s g = Ok r'.
Proof. unfold pseudopot. intros E. destruct ws as [|k [|v [|]]]; try discriminate. step1 E. eauto. Qed.
Lemma keeps_debug F : In F_PSPOT F -> keeps F (to_run pspot_debug).
Proof.
  intros HF. apply keeps_run. intros line b r r' G E. unfold pspot_debug in E. destruct (re_match EIGENVALUE_RE line); [|injection E as <-; exact G].
  step1 E. eapply good_append; [exact G| |exact E]. asked_tac.
Qed.
Lemma keeps_energy F k f : keeps F (to_run (fun l _ r => energy k (f l) r)).
Proof. apply keeps_run. intros line b r r' G E. eapply good_with; [exact G|apply asked_energies|exact E]. Qed.
Lemma keeps_energy_line F k : keeps F (energy_line k).
Proof. apply (keeps_energy F k last_number). Qed.
Lemma keeps_solvation F : keeps F (to_run solvation).
Proof. apply keeps_run. intros line b r r' G E. eapply good_with; [exact G|apply asked_energies|exact E]. Qed.
Lemma keeps_spin F : (exists f, In f [F_SCF; F_SPIN] /\ In f F) -> keeps F (to_run spin_density).
Proof.
  intros HF. assert (A : asked F (kstr "modspin") /\ asked F (kstr "spin")).
  { destruct HF as (f & [<-|[<-|[]]] & HF); split; asked_tac. }
  destruct A as [A1 A2]. apply keeps_run. intros line b r r' G E. unfold spin_density in E.
  destruct (re_match INTEGRATED_SPIN_DENSITY_RE line); [|injection E as <-; exact G]. step1 E.
  eapply good_append; [exact G| |exact E]. now destruct (chr_in "|" line).
Qed.
Lemma keeps_symmetry F : In F_SYMMETRIES F -> keeps F (to_run symmetry).
Proof.
  intros HF. apply keeps_run. intros line b r r' G E. unfold symmetry in E. step1 E. destruct y. injection E as <-.
  apply good_set; [apply good_set; [exact G|]|]; asked_tac.
Qed.
Lemma keeps_tss F : In F_TSS F -> In F_POSITION F -> keeps F (to_run tss).
Proof.
  intros HF HF'. apply keeps_run. intros line b r r' G E. unfold tss in E. step1 E. injection E as <-. apply good_set; [exact G|].
  destruct (contains _ line); asked_tac.
Qed.
Lemma keeps_labelled F : In F_POSITION F -> keeps F (to_run labelled).
Proof.
  intros HF. apply keeps_run. intros line b r r' G E. unfold labelled in E.
  assert (G' : good F (ensure r (kstr "labels") (VDict true []))). { apply good_ensure; [exact G|asked_tac]. }
  destruct (dget key_eqb _ (kstr "labels")) as [[]|]; try discriminate. step1 E. destruct y. injection E as <-.
  apply good_set; [apply good_set; [exact G'|]|]; asked_tac.
Qed.
Lemma keeps_mixture F : In F_POSITION F -> keeps F mixture.
Proof.
  intros HF line b rest st st' rest' [G1 G2] E. unfold mixture in E. step1 E. destruct y. injection E as <- <-. split; [|exact G2]. cbn [s_run].
  apply good_set; [exact G1|asked_tac].
Qed.
Lemma good_under F n k v r r' : asked F (kstr n) -> good F r -> under n k v r = Ok r' -> good F r'.
Proof. intros H G E. eapply good_with; eassumption. Qed.
Lemma keeps_forces F : In F_FORCE F -> keeps F (to_run forces).
Proof. intros HF. apply keeps_run. intros line b r r' G E. unfold forces in E. step1 E. destruct y. eapply good_under; [|exact G|exact E]. asked_tac. Qed.
Lemma keeps_com F : In F_FORCE F -> keeps F (to_run com_force).
Proof. intros HF. apply keeps_run. intros line b r r' G E. unfold com_force in E. step1 E. step1 E. eapply good_under; [|exact G|exact E]. asked_tac. Qed.
Lemma keeps_stresses F : In F_STRESS F -> keeps F (to_run stresses).
Proof. intros HF. apply keeps_run. intros line b r r' G E. unfold stresses in E. step1 E. destruct y. eapply good_under; [|exact G|exact E]. asked_tac. Qed.
Lemma keeps_tensors F k1 k2 : asked F (kstr k1) -> asked F (kstr k2) -> keeps F (to_run (two_tensors k1 k2)).
Proof.
  intros H1 H2. apply keeps_run. intros line b r r' G E. unfold two_tensors in E. step1 E. destruct y. injection E as <-.
  destruct (tuple_true _); repeat apply good_set; assumption.
Qed.
Lemma good_touch F r k r' : asked F k -> good F r -> touch_list r k = Ok r' -> good F r'.
Proof.
  unfold touch_list. intros H G E. destruct (dget key_eqb r k) as [[]|]; try discriminate; injection E as <-; try exact G. now apply good_set.
Qed.
Lemma keeps_md F rec : In F_MD F -> keeps F (to_run (md_block rec)).
Proof.
  intros HF. apply keeps_run. intros line b r r' G E. unfold md_block in E. step1 E. apply good_touch with (F := F) in Q; [|asked_tac|exact G].
  step1 E. step1 E. step1 E. destruct (dget key_eqb y2 (kstr "memory_estimate")).
  - eapply good_append; [| |exact E]; [apply good_set; [exact Q|]|]; asked_tac.
  - eapply good_append; [exact Q| |exact E]. asked_tac.
Qed.
Lemma keeps_md_data F : (exists f, In f [F_MD; F_MD_SUMMARY] /\ In f F) -> keeps F (to_run (fun _ b r => d <- process_md_block b ;; Ok (update r d))).
Proof.
  intros HF. apply keeps_run. intros line b r r' G E. step1 E. injection E as <-. apply good_floats; [exact G|now apply md_floats in Q|].
  destruct HF as (f & [<-|[<-|[]]] & HF); tauto.
Qed.
Lemma keeps_final F : keeps F (to_run final_config).
Proof.
  apply keeps_run. intros line b r r' G E. unfold final_config in E. destruct (dget key_eqb r (kstr "geom_opt")) as [[]|]; try (step1 E; discriminate).
  step1 E. injection E as <-. apply good_set; [exact G|apply asked_geom].
Qed.
Lemma good_geom F r r' : good F r -> geom_start r = Ok r' -> good F r'.
Proof.
  intros G E. unfold geom_start in E. step1 E. apply good_with with (F := F) in Q; [|exact G|apply asked_geom].
  destruct (dget key_eqb y (kstr "geom_opt")) as [[]|]; try discriminate. destruct (dget key_eqb items _) as [[]|]; try discriminate.
  destruct l; [|injection E as <-; exact Q]. step1 E. injection E as <-. apply good_set; [|apply asked_geom]. now apply filter_forall.
Qed.
Lemma keeps_geom F rec : keeps F (to_run (geom_iteration rec)).
Proof.
  apply keeps_run. intros line b r r' G E. unfold geom_iteration in E. step1 E. apply good_geom with (F := F) in Q; [|exact G].
  step1 E. step1 E. step1 E. eapply good_with; [exact Q|apply asked_geom|exact E].
Qed.
Lemma keeps_enthalpy F : In F_GEOM_OPT F -> keeps F (to_run enthalpy).
Proof.
  intros HF. apply keeps_run. intros line b r r' G E. unfold enthalpy in E. eapply good_late; [| |exact E]; [|asked_tac].
  apply good_ensure; [exact G|apply asked_geom].
Qed.
Lemma keeps_trial F : keeps F (to_run trial).
Proof.
  apply keeps_run. intros line b r r' G E. unfold trial in E. destruct (re_search TRIAL_RE line); [|injection E as <-; exact G].
  step1 E. eapply good_with; [exact G|apply asked_geom|exact E].
Qed.
Lemma keeps_final_line F : keeps F (to_run final_line).
Proof.
  apply keeps_run. intros line b r r' G E. unfold final_line in E. destruct (re_match FINAL_LINE_RE line); [|injection E as <-; exact G].
  step1 E. destruct (dget key_eqb r _) as [[]|]; try discriminate. destruct (dget key_eqb items _) as [[]|]; try discriminate.
  injection E as <-. apply good_set; [exact G|apply asked_geom].
Qed.
Lemma keeps_extend F k f : asked F (kstr k) -> keeps F (to_run (extend k f)).
Proof.
  intros H. apply keeps_run. intros line b r r' G E. unfold extend in E. destruct (dget key_eqb r (kstr k)) as [[]|]; try discriminate;
  (step1 E; injection E as <-; now apply good_set).
Qed.
Lemma good_elastic F k b r r' : In F_ELASTIC F -> good F r -> elastic_item k b r = Ok r' -> good F r'.
Proof. intros HF G E. unfold elastic_item in E. step1 E. eapply good_with; [exact G| |exact E]. asked_tac. Qed.
Lemma keeps_elastic F k : In F_ELASTIC F -> keeps F (to_run (fun _ => elastic_item k)).
Proof. intros HF. apply keeps_run. intros line b r r' G E. now apply good_elastic with (F := F) in E. Qed.
Lemma keeps_contribution F : keeps F (contribution F).
Proof.
  intros line b rest st st' rest' [G1 G2] E. unfold contribution in E. destruct (re_match CONTRIBUTION_RE line); [|discriminate].
  destruct (has F F_ELASTIC) eqn:Q; [|injection E as <- <-; now split]. apply has_in in Q. unfold in_run in E. step1 E. injection E as <- <-.
  step1 Q0. injection Q0 as <-. split; [|exact G2]. cbn [s_run]. eapply good_elastic; eassumption.
Qed.
Lemma keeps_extra F iter : In F_TEST_EXTRA_DATA F -> keeps F (to_run (extra iter)).
Proof.
  intros HF. apply keeps_run. intros line b r r' G E. unfold extra in E. destruct (re_search BEGIN_RE line); [|discriminate].
  destruct (find _ (PARSERS iter)) as [[n f]|]; [|discriminate]. step1 E. eapply good_with; [| |exact E]; [apply good_ensure; [exact G|]|]; asked_tac.
Qed.
(** The runs of the function itself *)
Definition rec_good (rec : filters -> list str -> result (list dict)) : Prop := forall F ls rs, rec F ls = Ok rs -> Forall (good F) rs.
Lemma keeps_basis F rec : rec_good rec -> In F_SCF F -> keeps F (basis_set rec).
Proof.
  intros Hr HF line b rest st st' rest' [G1 G2] E. unfold basis_set in E. destruct (re_search CUTOFF_RE line); [|injection E as <- <-; now split].
  step1 E. destruct rest; cbn [next_line bind] in E; [discriminate|]. destruct (l_from_re [] rest _ _ _ _) as [[bb|] r]; [|discriminate].
  step1 E. apply Hr in Q0. step1 E. assert (D : good FULL y1).
  { unfold get_only in Q1. destruct y0 as [|d [|]]; try discriminate. injection Q1 as <-. now inversion_clear Q0. }
  destruct (pop y1 (kstr "scf")) as [[scf d1]|] eqn:P1; cbn [bind] in E; [|discriminate].
  destruct (pop d1 (kstr "energies")) as [[en d2]|] eqn:P2; cbn [bind] in E; [|discriminate].
  assert (D2 : good FULL d2).
  { unfold pop in P1, P2. destruct (dget key_eqb y1 _); [|discriminate]. injection P1 as <- <-. destruct (dget key_eqb _ (kstr "energies")); [|discriminate].
    injection P2 as <- <-. now repeat apply ddel_forall. }
  destruct scf; try discriminate. step1 E. unfold in_run in E. cbn [bind] in E. injection E as <- <-. split; [|exact G2]. cbn [s_run].
  apply update_forall; [apply good_set; [apply good_set; [apply good_set; [exact G1|]|]|]; asked_tac|].
  eapply Forall_impl; [|exact D2]. intros e He. right. right. split; [exact HF|]. destruct He as [He|[[He _]|[_ He]]]; tauto.
Qed.
Ltac keep_one := cbn [rule_keeps]; unfold only;
  repeat first [apply keeps_compiled | apply keeps_finalisation | apply keeps_contribution | apply keeps_energy_line | apply keeps_final | apply keeps_geom
               | apply keeps_trial | apply keeps_final_line | apply keeps_solvation
               | apply keeps_only; intro | apply keeps_wanted; intro
               | now apply keeps_warning | now apply keeps_title | now apply keeps_applied | now apply keeps_ps | now apply keeps_debug
               | now apply keeps_spin | now apply keeps_symmetry | now apply keeps_tss | now apply keeps_labelled | now apply keeps_mixture
               | now apply keeps_forces | now apply keeps_com | now apply keeps_stresses | now apply keeps_md | now apply keeps_md_data
               | now apply keeps_enthalpy | now apply keeps_elastic | now apply keeps_extra | now apply keeps_basis
               | apply keeps_props; [assumption|first [exact mass_is | exact quadrupole_is | apply pseudopot_is]]
               | apply keeps_extend; asked_tac | apply keeps_tensors; asked_tac
               | apply keeps_put; asked_tac | apply keeps_put_line; asked_tac | apply keeps_add; asked_tac | apply keeps_add_val; asked_tac ].
Lemma all_keep iter rec F : rec_good rec -> Forall (rule_keeps F) (all_rules iter rec F).
Proof.
  intros Hr. unfold all_rules. rewrite !Forall_app. unfold rules_1, rules_2, rules_3, rules_4, rules_5, rules_6, magres_rule.
  repeat match goal with |- _ /\ _ => split end;
  repeat (apply Forall_cons; [keep_one|]); apply Forall_nil.
Qed.
Lemma loop_keeps {A} (P : A -> Prop) (step : A -> str -> list str -> result (A * list str)) :
  (forall st l rest st' rest', P st -> step st l rest = Ok (st', rest') -> P st') ->
  forall n st ls st', P st -> file_loop step n st ls = Ok st' -> P st'.
Proof.
  intros H. induction n as [|n IH]; intros st ls st' Hs E; destruct ls as [|l ls]; cbn [file_loop] in E; try discriminate;
  try (injection E as <-; exact Hs). destruct (step st l ls) as [[s r]|] eqn:Q; cbn [bind] in E; [|discriminate]. eapply IH; [|exact E]. eapply H; eassumption.
Qed.
Lemma floated F k v v' : permitted F (k, v) -> to_type TFloat v = Ok v' -> permitted F (k, v').
Proof.
  intros [H|[[[f H] H']|[H [H'|[f H']]]]] E; [now left| | |]; cbn [fst snd] in *.
  - subst v. cbn in E. injection E as <-. right. left. split; [now exists f|exact H'].
  - right. right. split; [exact H|now left].
  - subst v. cbn in E. injection E as <-. right. right. split; [exact H|right; now exists f].
Qed.
Lemma dget_member (d : dict) k v : dget key_eqb d k = Some v -> exists k', In (k', v) d /\ k' = k.
Proof.
  induction d as [|[k' v'] d IH]; cbn [dget]; [discriminate|]. destruct (key_eqb k' k) eqn:E.
  - intros H. injection H as <-. apply TextParsersFacts.key_eqb_eq in E. subst. exists k. split; [now left|reflexivity].
  - intros H. apply IH in H as (k'' & H & ->). exists k. split; [now right|reflexivity].
Qed.
Lemma fixed_good F ks : forall d d', good F d -> fix_data_types d (map (fun k => (k, TFloat)) ks) = Ok d' -> good F d'.
Proof.
  unfold fix_data_types. induction ks as [|k ks IH]; intros d d' G E; cbn [map foldM fst snd] in E; [injection E as <-; exact G|].
  destruct (dget key_eqb d k) as [v|] eqn:Q.
  - destruct (to_type TFloat v) as [v'|] eqn:Q'; cbn [rmap bind] in E; [|discriminate]. eapply IH; [|exact E]. apply dset_forall; [exact G|].
    apply dget_member in Q as (k' & Q & ->). eapply floated; [|exact Q']. unfold good in G. rewrite Forall_forall in G. now apply G.
  - cbn [bind] in E. eapply IH; [exact G|exact E].
Qed.
Lemma close_good F st rs : good_st F st -> close_runs st = Ok rs -> Forall (good F) rs.
Proof.
  intros [G1 G2] E. unfold close_runs in E. destruct (s_run st) eqn:Q; [injection E as <-; exact G2|].
  step1 E. injection E as <-. apply Forall_app. split; [exact G2|]. constructor; [|constructor].
  exact (fixed_good F [kstr "energies"; kstr "solvation"] _ _ G1 Q0).
Qed.
Lemma parse_good iter : forall d, rec_good (parse_castep iter d).
Proof.
  assert (G : forall rec, rec_good rec -> forall F ls rs,
    (st <- over_file (castep_step iter rec F) {| s_runs := []; s_run := []; s_mix := None |} ls ;; close_runs st) = Ok rs -> Forall (good F) rs).
  { intros rec Hr F ls rs E. step1 E. eapply close_good; [|exact E]. unfold over_file in Q.
    eapply loop_keeps; [| |exact Q]; [|split; constructor].
    intros st l rest st' rest' Gs Es. eapply rules_keep; [apply all_keep; exact Hr|exact Gs|exact Es]. }
  induction d as [|d IH]; intros F ls rs E; cbn [parse_castep] in E; (eapply G; [|exact E]); [|exact IH].
  intros F' b r X. discriminate X.
Qed.
Lemma filters_respected iter F ls v : parse_castep_file iter F ls = Ok v ->
  exists rs, v = VList (map (VDict true) rs) /\ Forall (Forall (permitted F)) rs.
Proof.
  unfold parse_castep_file. intros E. destruct (parse_castep iter (length ls) F ls) as [rs|] eqn:Q; cbn [rmap bind] in E; [|discriminate]. injection E as <-.
  exists rs. split; [reflexivity|]. now apply parse_good in Q.
Qed.
