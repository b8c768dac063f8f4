(** Asking for less of a .castep file. *)
From Verif Require Import PyBase PyFacts PyVal DictUtil CastepFile SpecBands SpecCastep SpecCastepFile SpecCastepRun CastepFilter CastepRunFacts CastepKinds CastepKinds2 CastepKinds3 CastepLines CastepRuns.
Local Open Scope list_scope.
Local Open Scope nat_scope.

Definition keepb (F : list filt) (n : string) : bool := existsb (fun o => String.eqb (fst o) n && existsb (fun fs => forallb (has F) fs) (snd o)) owners.
Lemma keepb_asked F n : keepb F n = true <-> asked F (name n).
Proof.
  unfold keepb, asked. rewrite existsb_exists. split.
  - intros ([n' alts] & I & H). apply andb_true_iff in H as [H1 H2]. cbn [fst snd] in *. apply String.eqb_eq in H1. subst n'. apply existsb_exists in H2 as (fs & J & A).
    exists n, alts, fs. split; [reflexivity|]. split; [exact I|]. split; [exact J|]. intros f Hf. rewrite forallb_forall in A. apply has_in. now apply A.
  - intros (n' & alts & fs & E & I & J & A). apply name_inj in E. subst n'. exists (n, alts). split; [exact I|]. cbn [fst snd]. rewrite String.eqb_refl. cbn [andb].
    apply existsb_exists. exists fs. split; [exact J|]. apply forallb_forall. intros f Hf. apply has_in. now apply A.
Qed.
Lemma keepb_one F n alts : filter (fun o => String.eqb (fst o) n) owners = [(n, [alts])] -> keepb F n = true <-> incl alts F.
Proof.
  intros H. unfold keepb. assert (E : forall l, existsb (fun o : string * list (list filt) => String.eqb (fst o) n && existsb (fun fs => forallb (has F) fs) (snd o)) l =
    existsb (fun o => existsb (fun fs => forallb (has F) fs) (snd o)) (filter (fun o => String.eqb (fst o) n) l)).
  { induction l as [|o l IH]; [reflexivity|]. cbn [existsb filter]. destruct (String.eqb (fst o) n); cbn [andb existsb]; now rewrite IH. }
  rewrite E, H. cbn [existsb snd]. rewrite !orb_false_r, forallb_forall. split; intros A x I; [apply has_in|apply has_in]; now apply A.
Qed.
(** Whether an effect is asked for, decided *)
Definition keep (F : list filt) (e : effect) : bool :=
  keepb F (about e) && (if String.eqb (about e) "energies" && same_text (second_name e) (text_of "solvation") then has F F_SOLVATION else true).
Lemma keep_asked F e : keep F e = true <-> effect_asked F e.
Proof.
  unfold keep, effect_asked. rewrite andb_true_iff, keepb_asked. split; intros [H1 H2]; (split; [exact H1|]).
  - intros E S. rewrite E, S in H2. rewrite (proj2 (text_same _ _) eq_refl) in H2. now apply has_in.
  - destruct (String.eqb_spec (about e) "energies"); [|reflexivity]. destruct (same_text _ _) eqn:S; [|reflexivity]. apply text_same in S. cbn [andb]. apply has_in. auto.
Qed.
Definition kept (F : list filt) (es : list effect) : list effect := filter (keep F) es.
Lemma kept_out F es : left_out F es (kept F es).
Proof.
  induction es as [|e es IH]; [constructor|]. cbn [kept filter]. pose proof (keep_asked F e) as H. destruct (keep F e); [apply lo_keep; [now apply H|exact IH]|].
  apply lo_drop; [|exact IH]. intros X. apply H in X. discriminate.
Qed.
Lemma kept_app F a b : kept F (a ++ b) = kept F a ++ kept F b.
Proof. apply filter_app. Qed.
(** The effects of a kind are asked for when the kind is. *)
Lemma owned_one F n f e : about e = n -> filter (fun o => String.eqb (fst o) n) owners = [(n, [[f]])] -> n <> "energies"%string -> keep F e = true <-> In f F.
Proof.
  intros A O N. unfold keep. rewrite A. destruct (String.eqb_spec n "energies"); [contradiction|]. cbn [andb]. rewrite andb_true_r, (keepb_one F n [f] O). split.
  - intros H. apply H. now left.
  - intros H x [<-|[]]. exact H.
Qed.
Definition owned (K : kind) : Prop := forall F b es e, k_says K b es -> In e es -> keep F e = true <-> In (k_asked K) F.
Lemma sets_about k says b es e : sets k says b es -> In e es -> In (about e) [k].
Proof. intros (v & _ & ->) [<-|[]]. now left. Qed.
Lemma appends_about k says b es e : appends k says b es -> In e es -> In (about e) [k].
Proof. intros (v & _ & ->) [<-|[]]. now left. Qed.
Lemma enters_about k says b es e : enters k says b es -> In e es -> In (about e) [k].
Proof. intros (d & _ & _ & ->) I. apply in_map_iff in I as (x & <- & _). now left. Qed.
Lemma tensors_about k1 k2 b es e : tensors k1 k2 b es -> In e es -> In (about e) [k1; k2].
Proof. intros (nss & r & rs & _ & _ & _ & ->) I. destruct (Nat.eqb _ _); [destruct I as [<-|[<-|[]]]|destruct I as [<-|[]]]; cbn; auto. Qed.
Lemma owned_sets K k says : k_says K = sets k says -> filter (fun o => String.eqb (fst o) k) owners = [(k, [[k_asked K]])] -> String.eqb k "energies" = false -> owned K.
Proof.
  intros E O N F b es e S I. rewrite E in S. destruct (sets_about _ _ _ _ _ S I) as [A|[]]. apply (owned_one F k); [now symmetry|exact O|]. intros ->. discriminate.
Qed.
Lemma owned_appends K k says : k_says K = appends k says -> filter (fun o => String.eqb (fst o) k) owners = [(k, [[k_asked K]])] -> String.eqb k "energies" = false -> owned K.
Proof.
  intros E O N F b es e S I. rewrite E in S. destruct (appends_about _ _ _ _ _ S I) as [A|[]]. apply (owned_one F k); [now symmetry|exact O|]. intros ->. discriminate.
Qed.
Lemma owned_enters K k says : k_says K = enters k says -> filter (fun o => String.eqb (fst o) k) owners = [(k, [[k_asked K]])] -> String.eqb k "energies" = false -> owned K.
Proof.
  intros E O N F b es e S I. rewrite E in S. destruct (enters_about _ _ _ _ _ S I) as [A|[]]. apply (owned_one F k); [now symmetry|exact O|]. intros ->. discriminate.
Qed.
Lemma owned_two K k1 k2 : (forall b es e, k_says K b es -> In e es -> In (about e) [k1; k2]) -> filter (fun o => String.eqb (fst o) k1) owners = [(k1, [[k_asked K]])] ->
  filter (fun o => String.eqb (fst o) k2) owners = [(k2, [[k_asked K]])] -> String.eqb k1 "energies" = false -> String.eqb k2 "energies" = false -> owned K.
Proof.
  intros H O1 O2 N1 N2 F b es e S I. destruct (H _ _ _ S I) as [A|[A|[]]].
  - apply (owned_one F k1); [now symmetry|exact O1|]. intros ->. discriminate.
  - apply (owned_one F k2); [now symmetry|exact O2|]. intros ->. discriminate.
Qed.
Lemma forces_about b es e : k_says (nth 5 kinds_1 (magres_kind "" "" 0)) b es -> In e es -> In (about e) ["forces"; "forces"]%string.
Proof. intros (? & ? & ? & ? & ? & _ & _ & _ & _ & ->) [<-|[]]. now left. Qed.
Lemma stresses_about b es e : k_says (nth 6 kinds_1 (magres_kind "" "" 0)) b es -> In e es -> In (about e) ["stresses"; "stresses"]%string.
Proof. intros (? & ? & ? & ? & _ & _ & _ & _ & ->) [<-|[]]. now left. Qed.
Lemma symmetry_about b es e : k_says (nth 7 kinds_2 (magres_kind "" "" 0)) b es -> In e es -> In (about e) ["symmetries"; "constraints"]%string.
Proof. intros (? & ? & ? & _ & _ & ->) [<-|[<-|[]]]; cbn; auto. Qed.
Ltac owned_names := first [eapply owned_sets; [reflexivity..]|eapply owned_appends; [reflexivity..]|eapply owned_enters; [reflexivity..]].
Ltac owned_pair H := apply Forall_cons; [eapply owned_two; [exact H|reflexivity..]|].
Lemma kinds_1_owned : Forall owned kinds_1.
Proof. unfold kinds_1. do 5 (apply Forall_cons; [owned_names|]). owned_pair forces_about. owned_pair stresses_about. repeat (apply Forall_cons; [owned_names|]). apply Forall_nil. Qed.
Lemma kinds_2_owned : Forall owned kinds_2.
Proof.
  unfold kinds_2. do 7 (apply Forall_cons; [owned_names|]). owned_pair symmetry_about. do 5 (apply Forall_cons; [owned_names|]).
  owned_pair (tensors_about "optical_permittivity" "dc_permittivity"). do 2 (owned_pair (tensors_about "optical_polarisability" "static_polarisability")). repeat (apply Forall_cons; [owned_names|]). apply Forall_nil.
Qed.
Lemma com_about b es e : k_says (nth 3 kinds_3 (magres_kind "" "" 0)) b es -> In e es -> In (about e) ["forces"; "forces"]%string.
Proof. intros (? & _ & _ & ->) [<-|[]]. now left. Qed.
Lemma kinds_3_owned : Forall owned kinds_3.
Proof. unfold kinds_3. do 3 (apply Forall_cons; [owned_names|]). owned_pair com_about. apply Forall_nil. Qed.
Lemma kinds_owned : Forall owned kinds.
Proof. apply Forall_app. split; [exact kinds_1_owned|]. apply Forall_app. split; [exact kinds_2_owned|exact kinds_3_owned]. Qed.
Lemma lines_owned : Forall (fun K => forall F l e, l_says K l e -> keep F e = true <-> incl (l_asked K) F) line_kinds.
Proof.
  assert (One : forall F n fs e, about e = n -> filter (fun o => String.eqb (fst o) n) owners = [(n, [fs])] -> String.eqb n "energies" && same_text (second_name e) (text_of "solvation") = false ->
    keep F e = true <-> incl fs F).
  { intros F n fs e A O N. unfold keep. rewrite A, N, andb_true_r. exact (keepb_one F n fs O). }
  apply Forall_app. split.
  2:{ unfold line_kinds_2. repeat (apply Forall_cons; [intros F b e H; cbn [l_says l_asked] in H |- *;
    first [destruct H as (? & ? & ? & ? & _ & _ & _ & _ & _ & ->)|destruct H as (? & ? & ? & _ & _ & _ & ->)|destruct H as (? & ? & ? & _ & _ & ->)|destruct H as (? & _ & _ & ->)]; eapply One; reflexivity|]). apply Forall_nil. }
  unfold line_kinds_1. repeat (apply Forall_cons; [intros F b e H; cbn [l_says l_asked SpecCastepRun.energy] in H |- *;
    first [destruct H as (? & ? & _ & _ & ->)|destruct H as (? & ? & _ & ->)|destruct H as (? & _ & _ & ->)]; eapply One; reflexivity|]).
  apply Forall_cons; [|apply Forall_nil]. intros F b e (n & _ & _ & ->). unfold keep. cbn [about second_name]. change (String.eqb "energies" "energies") with true.
  rewrite (proj2 (text_same _ _) eq_refl). cbn [andb l_asked]. pose proof (keepb_one F "energies" [] eq_refl) as E. rewrite (proj2 E) by (intros x []). cbn [andb]. rewrite has_in. split.
  - intros H x [<-|[]]. exact H.
  - intros H. apply H. now left.
Qed.
Lemma pieces_less F F' ls es : incl F F' -> pieces F' ls es -> pieces F ls (kept F es).
Proof.
  intros Inc. induction 1 as [|l ls es Q H IH|K l e ls es I N O A S H IH|K l ls es I N O A H IH|K l b es' ls es I N O D A S H IH|K l b ls es I N O D A H IH].
  - constructor.
  - now apply pc_quiet.
  - pose proof lines_owned as W. rewrite Forall_forall in W. pose proof (W K I F _ _ S) as B. cbn [kept filter]. destruct (keep F e).
    + apply (pc_line F K); auto. now apply B.
    + apply (pc_line_off F K); auto. intros X. apply B in X. discriminate.
  - apply (pc_line_off F K); auto. intros X. apply A. intros y Hy. auto.
  - pose proof kinds_owned as W. rewrite Forall_forall in W. pose proof (fun e => W K I F _ _ e S) as B. rewrite kept_app. destruct (has F (k_asked K)) eqn:Ha.
    + apply has_in in Ha. assert (kept F es' = es') as ->.
      { clear -B Ha. unfold kept. induction es' as [|e es' IH]; [reflexivity|]. cbn [filter]. rewrite (proj2 (B e (or_introl eq_refl)) Ha), IH; [reflexivity|]. intros x J. apply B. now right. }
      apply (pc_block F K); auto.
    + assert (Hn : ~ In (k_asked K) F) by (intros X; apply has_in in X; congruence). assert (kept F es' = []) as ->.
      { clear -B Hn. unfold kept. induction es' as [|e es' IH]; [reflexivity|]. cbn [filter]. destruct (keep F e) eqn:E; [apply (B e (or_introl eq_refl)) in E; contradiction|].
        apply IH. intros x J. apply B. now right. }
      apply (pc_block_off F K); auto.
  - apply (pc_block_off F K); auto.
Qed.
Lemma builds_less F F' b bs : incl F F' -> builds F' b bs -> builds F b (kept F bs).
Proof.
  intros Inc [l1 l2 ls s1 s2 es d Ia T D W1 W2 L M|l b' Ia T D].
  - unfold kept. cbn [filter]. unfold keep. cbn [about]. change (String.eqb "build_info" "energies") with false. cbn [andb]. rewrite andb_true_r.
    pose proof (keepb_one F "build_info" [F_SYS_INFO] eq_refl) as B. destruct (keepb F "build_info").
    + apply (bd_on F l1 l2 ls s1 s2 es d); auto. apply B; [reflexivity|now left].
    + apply bd_off; auto. intros X. enough (false = true) by discriminate. apply B. intros y [<-|[]]. exact X.
  - apply bd_off; auto.
Qed.
Lemma runs_less F F' ls rs : incl F F' -> runs F' ls rs -> runs F ls (map (kept F) rs).
Proof.
  intros Inc. induction 1 as [ls es H|ls es b bs ls' es' rs H B R IH].
  - apply rn_last. now apply (pieces_less F F').
  - cbn [map]. rewrite kept_app. apply (rn_next F ls (kept F es) b (kept F bs) ls' (kept F es')); [now apply (pieces_less F F')|now apply (builds_less F F')|exact IH].
Qed.
Lemma less_read iter F F' ls rs : incl F F' -> runs F' ls rs -> exists rs', parse_castep_file iter F ls = Ok (VList (map (VDict true) (file_read rs'))) /\
  Forall2 (left_out F) rs rs'.
Proof.
  intros Inc R. exists (map (kept F) rs). split; [apply file_of_runs; now apply (runs_less F F')|]. clear R. induction rs as [|es rs IH]; constructor; [apply kept_out|exact IH].
Qed.
(** What that means for the entries of a run *)
Lemma left_name F k es es' : left_out F es es' -> asked F (name k) -> k <> "energies"%string -> of_name k es' = of_name k es.
Proof.
  intros H A N. unfold of_name. induction H as [|e es es' K H IH|e es es' K H IH]; [reflexivity| |]; cbn [filter]; destruct (String.eqb_spec (about e) k); try (now rewrite IH); try exact IH.
  exfalso. apply K. subst k. split; [exact A|]. intros E. contradiction.
Qed.
Lemma left_in F es es' e : left_out F es es' -> In e es' <-> In e es /\ effect_asked F e.
Proof.
  induction 1 as [|x es es' K H IH|x es es' K H IH]; cbn [In]; rewrite ?IH; [intuition|intuition; subst; intuition|]. split; [intuition|]. intros [[->|I] J]; [contradiction|now split].
Qed.
Lemma left_entries F b es es' k v : left_out F es es' -> k <> name "energies" -> In (k, v) (run_of b es') <-> In (k, v) (run_of b es) /\ asked F k.
Proof.
  intros L N. unfold run_of. rewrite !in_map_iff. split.
  - intros (n & [= <- <-] & I). apply first_seen_in in I; [|exact string_same]. apply in_map_iff in I as (e & <- & I). apply (left_in _ _ _ _ L) in I as [I K]. split; [|exact (proj1 K)].
    exists (about e). split; [|apply first_seen_in; [exact string_same|now apply in_map]]. f_equal. unfold run_value. rewrite (left_name F _ _ _ L (proj1 K)); [reflexivity|congruence].
  - intros [(n & [= <- <-] & I) A]. assert (n <> "energies"%string) by congruence. exists n. apply first_seen_in in I; [|exact string_same]. apply in_map_iff in I as (e & <- & I). split.
    + f_equal. unfold run_value. now rewrite (left_name F _ _ _ L A).
    + apply first_seen_in; [exact string_same|]. apply in_map, (left_in _ _ _ _ L). split; [exact I|]. split; [exact A|]. intros E. contradiction.
Qed.
Lemma last_entries es k v : k <> name "energies" -> In (k, v) (run_of true es) <-> In (k, v) (run_of false es).
Proof.
  intros N. unfold run_of. rewrite !in_map_iff. split; intros (n & [= <- <-] & I); exists n; (split; [|exact I]); f_equal; unfold run_value;
    destruct (String.eqb_spec n "energies"); try congruence; reflexivity.
Qed.
