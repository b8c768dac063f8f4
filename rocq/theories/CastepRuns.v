(** The pieces and the runs of .castep files. *)
From Verif Require Import PyBase PyVal IntStr DictUtil DictFacts PyFacts Regex RegexFacts RegexComplete Stream StreamFacts NeedFacts PhraseFacts TextParsers TextParsersFacts SpecTable
  TextFiles FileParts FileParts4 FileParts5 TypeConv Header NumSpec SpecStr SpecLine NumFacts NumProps SpecMd SpecBands SpecDict
  SpecCastep SpecCastep2 SpecCastep3 CastepFacts PhononFacts Castep2Facts Castep3Facts LangFacts.
From Verif Require Import HeaderFacts BandsFacts CastepRes CastepBlocks CastepNum CastepRows CastepRest CastepFile SpecCastepFile SpecCastepRun CastepFileFacts QuietFacts CastepRunFacts CastepPieces CastepKinds CastepKinds2 CastepKinds3 CastepLines.
From Verif Require Import NumVal HeaderFacts.
From Verif Require CastepFilter StrUtilFacts.
Local Open Scope list_scope.
Local Open Scope nat_scope.

(** ** Pieces *)
Lemma has_not F x : ~ In x F -> has F x = false.
Proof. intros N. destruct (has F x) eqn:E; [|reflexivity]. now apply CastepFilter.has_in in E. Qed.
Lemma has_yes F x : In x F -> has F x = true.
Proof. apply CastepFilter.has_in. Qed.
Lemma only_on F x act l b rest st : In x F -> only F x act l b rest st = act l b rest st.
Proof. intros H. unfold only, wanted. cbn [existsb]. now rewrite (has_yes _ _ H). Qed.
Lemma only_off F x act l b rest st : ~ In x F -> only F x act l b rest st = Ok (st, rest).
Proof. intros H. unfold only, wanted. cbn [existsb]. now rewrite (has_not _ _ H). Qed.
Lemma loop_step iter rec F n st l ls st' rest : castep_step iter rec F st l ls = Ok (st', rest) -> length ls <= n ->
  file_loop (castep_step iter rec F) (S n) st (l :: ls) = file_loop (castep_step iter rec F) n st' rest.
Proof. intros E L. cbn [file_loop]. now rewrite E. Qed.
Lemma with_same st : with_run st (s_run st) = st.
Proof. now destruct st. Qed.
Lemma with_with st a b : with_run (with_run st a) b = with_run st b.
Proof. reflexivity. Qed.
(** Reading the pieces brings the run from one list of effects to the longer one. *)
Lemma pieces_read iter rec F ls es : pieces F ls es -> Forall proper es /\
  forall es0 st tail n, Forall proper es0 -> s_run st = run_of false es0 -> length (ls ++ tail) <= n ->
    exists n', length tail <= n' /\
    file_loop (castep_step iter rec F) n st (ls ++ tail) = file_loop (castep_step iter rec F) n' (with_run st (run_of false (es0 ++ es))) tail.
Proof.
  induction 1 as [|l ls es Q H IH|K l e ls es I N O A S H IH|K l ls es I N O A H IH|K l b e ls es I N O D A S H IH|K l b ls es I N O D A H IH].
  - split; [constructor|]. intros es0 st tail n P E L. exists n. split; [exact L|]. rewrite app_nil_r, <- E. now rewrite with_same.
  - destruct IH as [IH1 IH2]. split; [exact IH1|]. intros es0 st tail n P E L. destruct n; [cbn in L; lia|]. cbn [app length] in L |- *. 
    rewrite (loop_step _ _ _ _ _ _ _ _ _ (quiet_line iter rec F st l _ Q)) by lia. apply IH2; [assumption..|lia].
  - destruct IH as [IH1 IH2]. pose proof lines_supported as LS. rewrite Forall_forall in LS. destruct (LS K I) as (Ka & i & R). destruct (R iter rec F) as (t & act & Er & Op & Ac).
    assert (Pe : proper e). { destruct (Ac l e [] [] {| s_runs := []; s_run := []; s_mix := None |} S) as [Pe _]; [constructor|reflexivity|exact Pe]. }
    split; [now constructor|]. intros es0 st tail n P E L. destruct n; [cbn in L; lia|]. cbn [app length] in L |- *. destruct (Op l N O) as [Ps Ht].
    assert (St : castep_step iter rec F st l (ls ++ tail) = Ok (with_run st (run_of false (es0 ++ [e])), ls ++ tail)).
    { rewrite (line_step _ _ _ _ _ _ _ _ _ Ps Er Ht). destruct (Ac l e es0 (ls ++ tail) st S P E) as [_ X].
      destruct Ka as [->|(x & Kx)]; [exact X|]. rewrite Kx in A |- *. cbn [gated]. rewrite only_on; [exact X|]. apply A. now left. }
    rewrite (loop_step _ _ _ _ _ _ _ _ _ St) by lia. destruct (IH2 (es0 ++ [e]) (with_run st (run_of false (es0 ++ [e]))) tail n) as (n' & Ln & X); [now apply proper_snoc|reflexivity|lia|].
    exists n'. split; [exact Ln|]. rewrite X, with_with, <- app_assoc. reflexivity.
  - destruct IH as [IH1 IH2]. split; [exact IH1|]. pose proof lines_supported as LS. rewrite Forall_forall in LS. destruct (LS K I) as (Ka & i & R). destruct (R iter rec F) as (t & act & Er & Op & Ac).
    intros es0 st tail n P E L. destruct n; [cbn in L; lia|]. cbn [app length] in L |- *. destruct (Op l N O) as [Ps Ht].
    assert (St : castep_step iter rec F st l (ls ++ tail) = Ok (st, ls ++ tail)).
    { rewrite (line_step _ _ _ _ _ _ _ _ _ Ps Er Ht). destruct Ka as [Kx|(x & Kx)]; rewrite Kx in A |- *.
      - exfalso. apply A. intros y [].
      - cbn [gated]. apply only_off. intros Hx. apply A. intros y [<-|[]]. exact Hx. }
    rewrite (loop_step _ _ _ _ _ _ _ _ _ St) by lia. apply IH2; [assumption..|lia].
  - destruct IH as [IH1 IH2]. pose proof kinds_supported as LS. rewrite Forall_forall in LS. destruct (LS K I) as (i & R). destruct (R iter rec F) as (s & en & act & Er & Op & Cl & Ac).
    assert (Pe : Forall proper e). { destruct (Ac l b e [] [] {| s_runs := []; s_run := []; s_mix := None |} S) as [Pe _]; [constructor|reflexivity|exact Pe]. }
    split; [apply Forall_app; now split|]. intros es0 st tail n P E L. destruct n; [cbn in L; lia|]. cbn [app length] in L |- *. destruct (Op l N O) as [Ps Hs].
    assert (St : castep_step iter rec F st l ((b ++ ls) ++ tail) = Ok (with_run st (run_of false (es0 ++ e)), ls ++ tail)).
    { rewrite <- app_assoc, (block_step _ _ _ _ _ _ _ _ _ _ _ _ _ Ps Er Hs Cl D), only_on by exact A. now destruct (Ac l b e es0 (ls ++ tail) st S P E) as [_ X]. }
    rewrite (loop_step _ _ _ _ _ _ _ _ _ St) by lia. rewrite !app_length in L.
    destruct (IH2 (es0 ++ e) (with_run st (run_of false (es0 ++ e))) tail n) as (n' & Ln & X); [apply Forall_app; now split|reflexivity|rewrite app_length; lia|].
    exists n'. split; [exact Ln|]. rewrite X, with_with, <- app_assoc. reflexivity.
  - destruct IH as [IH1 IH2]. split; [exact IH1|]. pose proof kinds_supported as LS. rewrite Forall_forall in LS. destruct (LS K I) as (i & R). destruct (R iter rec F) as (s & en & act & Er & Op & Cl & Ac).
    intros es0 st tail n P E L. destruct n; [cbn in L; lia|]. cbn [app length] in L |- *. destruct (Op l N O) as [Ps Hs].
    assert (St : castep_step iter rec F st l ((b ++ ls) ++ tail) = Ok (st, ls ++ tail)).
    { rewrite <- app_assoc, (block_step _ _ _ _ _ _ _ _ _ _ _ _ _ Ps Er Hs Cl D). now apply only_off. }
    rewrite (loop_step _ _ _ _ _ _ _ _ _ St) by lia. rewrite !app_length in L. apply IH2; [assumption..|rewrite app_length; lia].
Qed.

(** ** Runs *)
Lemma run_nil b es : run_of b es = [] <-> es = [].
Proof.
  split; [|now intros ->]. intros H. destruct es as [|e es]; [reflexivity|]. exfalso. unfold run_of in H. apply map_eq_nil in H.
  assert (I : In (about e) (first_seen String.eqb (map about (e :: es)))) by (apply first_seen_in; [exact string_same|now left]). rewrite H in I. contradiction.
Qed.
Lemma title_starts l : build_title l -> re_test (RSeqs [RBol; ws_star; RLit "Compiled for"]) l = true.
Proof.
  intros (a & r & Ha & ->). apply (start_iff (RSeq ws_star (RLit "Compiled for"))); [reflexivity|reflexivity|].
  exists (a ++ text_of "Compiled for"), r. split; [now rewrite app_assoc|]. apply lang_seq. exists a, (text_of "Compiled for"). split; [reflexivity|]. split; [now apply lang_blanks|now apply lang_lit].
Qed.
Definition closed (st : cstate) : list dict := match s_run st with [] => s_runs st | r => s_runs st ++ [r] end.
Lemma build_step iter rec F b bs : builds F b bs -> Forall proper bs /\ forall st tail, exists l b', b = l :: b' /\
  castep_step iter rec F st l (b' ++ tail) = Ok ({| s_runs := closed st; s_run := run_of false bs; s_mix := s_mix st |}, tail).
Proof.
  intros [l1 l2 ls s1 s2 es d Ia T D W1 W2 L M|l b' Ia T D].
  - split; [constructor; [now split|constructor]|]. intros st tail. exists l1, (l2 :: ls). split; [reflexivity|].
    rewrite (block_step iter rec F 0 (re_test (RSeqs [RBol; ws_star; RLit "Compiled for"])) empty 1 (compiled_for F) blanks l1 (l2 :: ls) tail st); [|constructor|reflexivity|now apply title_starts|apply blanks_empty|exact D].
    unfold compiled_for. rewrite (has_yes _ _ Ia). destruct (buildinfo_spec _ _ _ _ _ _ W1 W2 L) as (d' & E & M'). rewrite E. cbn [bind]. rewrite (merged_same _ _ _ M M'). reflexivity.
  - split; [constructor|]. intros st tail. exists l, b'. split; [reflexivity|].
    rewrite (block_step iter rec F 0 (re_test (RSeqs [RBol; ws_star; RLit "Compiled for"])) empty 1 (compiled_for F) blanks l b' tail st); [|constructor|reflexivity|now apply title_starts|apply blanks_empty|exact D].
    unfold compiled_for. now rewrite (has_not _ _ Ia).
Qed.
Lemma close_last st es : Forall proper es -> s_run st = run_of false es -> close_runs st = Ok (s_runs st ++ map (run_of true) (filter nonempty [es])).
Proof.
  intros P E. unfold close_runs. destruct es as [|e es].
  - rewrite E. cbn. now rewrite app_nil_r.
  - pose proof (run_nil false (e :: es)) as N. pose proof (run_closed _ P) as C. rewrite <- E in N, C. destruct (s_run st) as [|x r]; [now destruct N as [N _]; discriminate N|].
    rewrite C. reflexivity.
Qed.
Lemma runs_read iter rec F ls rs : runs F ls rs -> forall es0 st n, Forall proper es0 -> s_run st = run_of false es0 -> length ls <= n ->
  exists st', file_loop (castep_step iter rec F) n st ls = Ok st' /\
    close_runs st' = Ok (s_runs st ++ file_read (match rs with [] => [] | es :: rs' => (es0 ++ es) :: rs' end)).
Proof.
  induction 1 as [ls es H|ls es b bs ls' es' rs H B R IH]; intros es0 st n P E L.
  - destruct (pieces_read iter rec F _ _ H) as [Pe X]. destruct (X es0 st [] n P E) as (n' & _ & Y); [now rewrite app_nil_r|]. rewrite app_nil_r in Y. rewrite Y.
    eexists. split; [now destruct n'|]. assert (Q : Forall proper (es0 ++ es)) by (apply Forall_app; now split). exact (close_last (with_run st (run_of false (es0 ++ es))) (es0 ++ es) Q eq_refl).
  - destruct (pieces_read iter rec F _ _ H) as [Pe X]. destruct (X es0 st (b ++ ls') n P E L) as (n' & Ln & Y). rewrite Y.
    set (st1 := with_run st (run_of false (es0 ++ es))). destruct (build_step iter rec F _ _ B) as [Pb Z]. destruct (Z st1 ls') as (l & b' & -> & S).
    destruct n' as [|n']; [cbn in Ln; lia|]. cbn [app] in Ln |- *. cbn [length] in Ln. rewrite (loop_step _ _ _ _ _ _ _ _ _ S) by lia. rewrite app_length in Ln.
    destruct (IH bs {| s_runs := closed st1; s_run := run_of false bs; s_mix := s_mix st1 |} n' Pb eq_refl) as (st' & E1 & E2); [lia|].
    exists st'. split; [exact E1|]. rewrite E2. cbn [s_runs]. unfold closed, st1. cbn [with_run s_run s_runs].
    unfold file_read. cbn [removelast last filter map]. destruct (es0 ++ es) as [|e0 es1] eqn:Ee.
    + cbn [nonempty]. reflexivity.
    + cbn [nonempty map]. pose proof (run_nil false (e0 :: es1)) as N. destruct (run_of false (e0 :: es1)) as [|x r]; [now destruct N as [N _]; discriminate N|].
      now rewrite <- app_assoc.
Qed.
Theorem file_of_runs iter F ls rs : runs F ls rs -> parse_castep_file iter F ls = Ok (VList (map (VDict true) (file_read rs))).
Proof.
  intros H. enough (E : forall d, parse_castep iter d F ls = Ok (file_read rs)) by (unfold parse_castep_file; now rewrite E). intros d.
  assert (E : forall rec, (st <- over_file (castep_step iter rec F) {| s_runs := []; s_run := []; s_mix := None |} ls ;; close_runs st) = Ok (file_read rs)).
  { intros rec. destruct (runs_read iter rec F ls rs H [] {| s_runs := []; s_run := []; s_mix := None |} (length ls)) as (st' & E1 & E2); [constructor|reflexivity|lia|].
    unfold over_file. rewrite E1. cbn [bind]. rewrite E2. now destruct rs. }
  destruct d; apply E.
Qed.
