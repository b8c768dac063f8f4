(** Facts about reading .castep files. *)
From Verif Require Import PyBase PyFacts PyVal Regex StrUtil TypeConv DictUtil Stream StreamFacts Header TextParsers TextFiles
  CellParam CastepBlocks CastepNum CastepRows Pspot CastepRest CastepFile.
From Verif Require FileParts.
Local Open Scope list_scope.
Local Open Scope nat_scope.

(** ** The number of lines left *)
Lemma scan_total endp n : forall ls f d b r, l_scan endp n f ls = (d, b, r) -> length d + length r = length ls.
Proof.
  induction ls as [|l ls IH]; intros f d b r H; cbn [l_scan] in H; [injection H as <- <- <-; reflexivity|].
  destruct (endp l); [destruct (S f =? n)|].
  - injection H as <- <- <-. cbn. lia.
  - destruct (l_scan endp n (S f) ls) as [[d' b'] r'] eqn:E. injection H as <- <- <-. apply IH in E. cbn. lia.
  - destruct (l_scan endp n f ls) as [[d' b'] r'] eqn:E. injection H as <- <- <-. apply IH in E. cbn. lia.
Qed.
Lemma from_re_total init ls sp ep n eof b r : l_from_re init ls sp ep n eof = (Ok b, r) -> length b + length r <= S (length ls).
Proof.
  unfold l_from_re. destruct (sp init); cbn [negb]; [|intros H; injection H as <- <-; cbn; lia].
  destruct (l_scan ep n 0 ls) as [[d br] r'] eqn:E. apply scan_total in E. destruct (br || eof); [|discriminate].
  intros H. injection H as <- <-. cbn. lia.
Qed.
(** What an action is given, and what it leaves. *)
Definition takes (act : action) : Prop := forall line b rest st st' rest', act line b rest st = Ok (st', rest') ->
  length rest' <= length rest + pred (length b).
Definition rule_takes (r : rule) : Prop := match r with RBlock _ _ _ _ act => takes act | RLine _ act => takes act end.
Lemma rules_take rs : Forall rule_takes rs -> forall line rest st st' rest', try_rules rs line rest st = Ok (st', rest') ->
  length rest' <= length rest.
Proof.
  intros H line. induction H as [|r rs Hr H IH]; intros rest st st' rest' E.
  - cbn in E. injection E as <- <-. lia.
  - destruct r as [s e n eof act|t act]; cbn [try_rules] in E.
    + unfold if_block in E. destruct (l_from_re line rest s e n eof) as [[b|x] r'] eqn:F; [|discriminate].
      pose proof (from_re_total _ _ _ _ _ _ _ _ F) as L. pose proof (FileParts.from_re_len line rest s e n eof) as L'. rewrite F in L'. cbn [snd] in L'.
      destruct (l_bool b); [apply Hr in E; destruct b; cbn in *; lia|apply IH in E; lia].
    + destruct (t line); [apply Hr in E; cbn in E; lia|now apply IH in E].
Qed.
Lemma to_run_takes f : takes (to_run f).
Proof.
  intros line b rest st st' rest' H. unfold to_run, in_run in H. destruct (f line b (s_run st)); cbn in H; [|discriminate]. injection H as <- <-. lia.
Qed.
Lemma wanted_takes F fs act : takes act -> takes (wanted F fs act).
Proof. intros H line b rest st st' rest' E. unfold wanted in E. destruct (existsb (has F) fs); [now apply H in E|injection E as <- <-; lia]. Qed.
Lemma compiled_takes F : takes (compiled_for F).
Proof.
  intros line b rest st st' rest' H. unfold compiled_for in H. destruct (has F F_SYS_INFO); [|injection H as <- <-; lia].
  destruct (process_buildinfo b); cbn in H; [|discriminate]. injection H as <- <-. lia.
Qed.
Lemma finalisation_takes F : takes (finalisation F).
Proof.
  intros line b rest st st' rest' H. unfold finalisation in H.
  set (r := if contains ($"<") (last b []) then match b with [] | [_] => rest | _ => last b [] :: rest end else rest) in H.
  assert (L : length r <= length rest + pred (length b)).
  { unfold r. destruct (contains _ _); [|lia]. destruct b as [|x [|y b]]; cbn; lia. }
  destruct (has F F_SYS_INFO); [|injection H as <- <-; exact L].
  destruct (process_finalisation _); cbn in H; [|discriminate]. injection H as <- <-. exact L.
Qed.
Lemma warning_len i : forall ls w f w' r, warning_lines i w f ls = (w', r) -> length r <= length ls.
Proof.
  induction ls as [|l ls IH]; intros w f w' r H; cbn [warning_lines] in H; [injection H as <- <-; lia|].
  destruct (isempty (strip l) || _); [injection H as <- <-; destruct f; cbn; lia|apply IH in H; cbn; lia].
Qed.
Lemma warning_takes : takes warning_line.
Proof.
  intros line b rest st st' rest' H. unfold warning_line in H. destruct (re_match WARNING_RE line) as [x|]; [|injection H as <- <-; lia].
  destruct (warning_lines _ _ _ rest) as [w r] eqn:E. apply warning_len in E.
  destruct (in_run st _); cbn in H; [|discriminate]. injection H as <- <-. lia.
Qed.
Lemma next_takes (f : str -> cstate -> result cstate) :
  takes (fun _ _ rest st => ' (l, rest) <- next_line rest ;; st <- f l st ;; Ok (st, rest)).
Proof.
  intros line b rest st st' rest' H. destruct rest as [|l rest]; cbn in H; [discriminate|].
  destruct (f l st); cbn in H; [|discriminate]. injection H as <- <-. cbn. lia.
Qed.
Lemma applied_takes : takes applied_field.
Proof.
  intros line b rest st st' rest' H. unfold applied_field in H. destruct rest as [|l rest]; cbn [next_line bind] in H; [discriminate|].
  destruct (numbers_as TFloat l); cbn in H; [|discriminate]. injection H as <- <-. cbn. lia.
Qed.
Lemma basis_takes rec : takes (basis_set rec).
Proof.
  intros line b rest st st' rest' H. unfold basis_set in H. destruct (re_search CUTOFF_RE line) as [x|]; [|injection H as <- <-; lia].
  destruct (py_int _) as [n|]; cbn [bind] in H; [|discriminate].
  destruct rest as [|l rest]; cbn [next_line bind] in H; [discriminate|].
  destruct (l_from_re [] rest _ scf_end _ false) as [[bb|e] r] eqn:E; [|discriminate].
  pose proof (FileParts.from_re_len [] rest (fun _ => true) scf_end (3 * Z.to_nat n) false) as L. rewrite E in L. cbn [snd] in L.
  destruct (rec FULL bb) as [rs|]; cbn [bind] in H; [|discriminate]. destruct (get_only rs) as [data|]; cbn [bind] in H; [|discriminate].
  destruct (pop data (kstr "scf")) as [[scf d1]|]; cbn [bind] in H; [|discriminate].
  destruct (pop d1 (kstr "energies")) as [[en d2]|]; cbn [bind] in H; [|discriminate].
  destruct scf; try discriminate. destruct (last_item l0); cbn [bind] in H; [|discriminate].
  destruct (in_run st _); cbn in H; [|discriminate]. injection H as <- <-. cbn. lia.
Qed.
Lemma contribution_takes F : takes (contribution F).
Proof.
  intros line b rest st st' rest' H. unfold contribution in H. destruct (re_match CONTRIBUTION_RE line); [|discriminate].
  destruct (has F F_ELASTIC); [|injection H as <- <-; lia]. destruct (in_run st _); cbn in H; [|discriminate]. injection H as <- <-. lia.
Qed.
Lemma mixture_takes : takes mixture.
Proof.
  intros line b rest st st' rest' H. unfold mixture in H. destruct (foldM mixture_line b _) as [[m p]|]; cbn in H; [|discriminate].
  injection H as <- <-. lia.
Qed.
Lemma title_takes : takes title_line.
Proof. exact (next_takes (fun l st => in_run st (fun r => Ok (dset key_eqb r (kstr "title") (VStr (strip l)))))). Qed.
Ltac takes_one := cbn [rule_takes]; unfold only;
  repeat first [apply wanted_takes | apply to_run_takes | apply compiled_takes | apply finalisation_takes | apply warning_takes | apply title_takes
               | apply applied_takes | apply basis_takes | apply contribution_takes | apply mixture_takes].
Lemma all_take iter rec F : Forall rule_takes (all_rules iter rec F).
Proof.
  unfold all_rules. rewrite !Forall_app. unfold rules_1, rules_2, rules_3, rules_4, rules_5, rules_6, magres_rule.
  repeat match goal with |- _ /\ _ => split end;
  repeat (apply Forall_cons; [takes_one|]); apply Forall_nil.
Qed.
Lemma castep_step_len iter rec F st line rest st' rest' : castep_step iter rec F st line rest = Ok (st', rest') -> length rest' <= length rest.
Proof. apply rules_take, all_take. Qed.

(** ** The depth of the nesting does not matter *)
Definition same_on (N : nat) (r1 r2 : filters -> list str -> result (list dict)) : Prop := forall F b, length b <= N -> r1 F b = r2 F b.
Definition acts_same (N : nat) (a1 a2 : action) : Prop := forall line b rest st, length rest <= N -> length b <= S N -> a1 line b rest st = a2 line b rest st.
Definition rules_same (N : nat) (r1 r2 : rule) : Prop :=
  match r1, r2 with
  | RBlock s e n eof a1, RBlock s' e' n' eof' a2 => s = s' /\ e = e' /\ n = n' /\ eof = eof' /\ acts_same N a1 a2
  | RLine t a1, RLine t' a2 => t = t' /\ acts_same N a1 a2
  | _, _ => False
  end.
Lemma try_same N rs1 rs2 : Forall2 (rules_same N) rs1 rs2 -> forall line rest st, length rest <= N ->
  try_rules rs1 line rest st = try_rules rs2 line rest st.
Proof.
  induction 1 as [|r1 r2 rs1 rs2 Hr H IH]; intros line rest st L; [reflexivity|].
  destruct r1 as [s e n eof a1|t a1], r2 as [s' e' n' eof' a2|t' a2]; cbn [rules_same] in Hr; try tauto.
  - destruct Hr as (<- & <- & <- & <- & Ha). cbn [try_rules]. unfold if_block.
    destruct (l_from_re line rest s e n eof) as [[b|x] r'] eqn:F; [|reflexivity].
    pose proof (from_re_total _ _ _ _ _ _ _ _ F) as L1. pose proof (FileParts.from_re_len line rest s e n eof) as L2. rewrite F in L2. cbn [snd] in L2.
    destruct (l_bool b); [apply Ha; lia|apply IH; lia].
  - destruct Hr as (<- & Ha). cbn [try_rules]. destruct (t line); [apply Ha; cbn; lia|now apply IH].
Qed.
Lemma rules_same_refl N r : rules_same N r r.
Proof. destruct r; cbn; unfold acts_same; repeat split. Qed.
Lemma wanted_same N F fs a1 a2 : acts_same N a1 a2 -> acts_same N (wanted F fs a1) (wanted F fs a2).
Proof. intros H line b rest st L1 L2. unfold wanted. destruct (existsb (has F) fs); [now apply H|reflexivity]. Qed.
Lemma md_same N r1 r2 : same_on N r1 r2 -> acts_same N (to_run (md_block r1)) (to_run (md_block r2)).
Proof.
  intros H line b rest st L1 L2. unfold to_run, in_run, md_block. destruct (touch_list (s_run st) (kstr "md")) as [r|]; cbn [bind]; [|reflexivity].
  rewrite (H HIGH (tl b)); [reflexivity|]. destruct b; cbn in *; lia.
Qed.
Lemma geom_same N r1 r2 : same_on N r1 r2 -> acts_same N (to_run (geom_iteration r1)) (to_run (geom_iteration r2)).
Proof.
  intros H line b rest st L1 L2. unfold to_run, in_run, geom_iteration. destruct (geom_start (s_run st)) as [r|]; cbn [bind]; [|reflexivity].
  rewrite (H HIGH (tl b)); [reflexivity|]. destruct b; cbn in *; lia.
Qed.
Lemma basis_same N r1 r2 : same_on N r1 r2 -> acts_same N (basis_set r1) (basis_set r2).
Proof.
  intros H line b rest st L1 L2. unfold basis_set. destruct (re_search CUTOFF_RE line) as [x|]; [|reflexivity].
  destruct (py_int _) as [n|]; cbn [bind]; [|reflexivity]. destruct rest as [|l rest]; cbn [next_line bind]; [reflexivity|].
  destruct (l_from_re [] rest _ scf_end _ false) as [[bb|e] r] eqn:E; [|reflexivity]. apply from_re_total in E.
  rewrite (H FULL bb); [reflexivity|]. cbn in *. lia.
Qed.
Lemma all_same iter r1 r2 F N : same_on N r1 r2 -> Forall2 (rules_same N) (all_rules iter r1 F) (all_rules iter r2 F).
Proof.
  intros H. unfold all_rules, rules_2, rules_5.
  repeat apply Forall2_app; try (induction (_ : list rule); constructor; [apply rules_same_refl|assumption]);
  repeat (apply Forall2_cons; [first [apply rules_same_refl | cbn [rules_same]; unfold only; repeat split; apply wanted_same;
    first [now apply md_same | now apply geom_same | now apply basis_same]]|]); try apply Forall2_nil.
  all: match goal with |- Forall2 _ ?l ?l => generalize l; intros m; induction m; constructor; [apply rules_same_refl|assumption] end.
Qed.
Lemma loop_same {A} (s1 s2 : A -> str -> list str -> result (A * list str)) N :
  (forall st l rest, length rest < N -> s1 st l rest = s2 st l rest) ->
  (forall st l rest st' rest', s1 st l rest = Ok (st', rest') -> length rest' <= length rest) ->
  forall n st ls, length ls <= N -> file_loop s1 n st ls = file_loop s2 n st ls.
Proof.
  intros H Hl. induction n as [|n IH]; intros st ls L; destruct ls as [|l ls]; try reflexivity.
  cbn [file_loop]. cbn in L. rewrite <- H by lia. destruct (s1 st l ls) as [[st' r']|] eqn:E; cbn [bind]; [|reflexivity].
  apply Hl in E. apply IH. lia.
Qed.
Lemma parse_depths iter : forall d1 d2 F ls, length ls <= d1 -> length ls <= d2 -> parse_castep iter d1 F ls = parse_castep iter d2 F ls.
Proof.
  induction d1 as [|d1 IH]; intros d2 F ls L1 L2.
  - destruct ls; [|cbn in L1; lia]. destruct d2; reflexivity.
  - destruct d2 as [|d2]; [destruct ls; [reflexivity|cbn in L2; lia]|]. cbn [parse_castep].
    match goal with |- bind ?a _ = bind ?b _ => enough (H : a = b) by (rewrite H; reflexivity) end. unfold over_file.
    apply loop_same with (N := S (min d1 d2)); [|intros *; apply castep_step_len|lia].
    intros st l rest L. unfold castep_step. apply try_same with (N := min d1 d2); [|lia]. apply all_same.
    intros F' b Lb. apply IH; lia.
Qed.
