(** The pieces of a .castep file are given to the branches they are meant for. *)
From Verif Require Import PyBase PyVal DictUtil PyFacts Regex RegexFacts RegexComplete Stream StreamFacts NeedFacts PhraseFacts TextParsers TextParsersFacts SpecTable
  TextFiles FileParts FileParts4 FileParts5 TypeConv Header NumSpec SpecStr SpecLine NumFacts NumProps SpecMd SpecBands SpecDict
  SpecCastep SpecCastep2 SpecCastep3 CastepFacts PhononFacts Castep2Facts Castep3Facts LangFacts.
From Verif Require Import CastepRes CastepBlocks CastepNum CastepRows CastepRest CastepFile SpecCastepFile SpecCastepRun CastepFileFacts QuietFacts CastepRunFacts.
Local Open Scope list_scope.
Local Open Scope nat_scope.

(** ** Blocks and lines in general *)
Lemma delimited_scan (close : str -> Prop) (e : str -> bool) : (forall x, close x <-> e x = true) ->
  forall n b rest f, delimited close n b -> l_scan e (n + f) f (b ++ rest) = (b, true, rest).
Proof.
  intros H n b rest f D. revert f. induction D as [l C|l n ls C D IH|l n ls C D IH]; intros f; cbn [app l_scan].
  - apply H in C. rewrite C. now rewrite Nat.eqb_refl.
  - apply H in C. rewrite C. assert (n <> 0) by (intros ->; clear -D; remember 0; induction D; congruence || auto).
    destruct (S f =? S n + f) eqn:E; [apply Nat.eqb_eq in E; lia|]. replace (S n + f) with (n + S f) by lia. now rewrite IH.
  - destruct (e l) eqn:E; [apply H in E; contradiction|]. now rewrite IH.
Qed.
Lemma space_lower c : is_space (lower_c c) = is_space c.
Proof. destruct c as [[] [] [] [] [] [] [] []]; reflexivity. Qed.
Lemma phrase_not_blank l : Exists (fun p => holds p l) phrases -> ~ blanks l.
Proof.
  intros E B. apply Exists_exists in E as (p & I & H).
  assert (N : Forall (fun p : bool * string => existsb (fun c => negb (is_space c)) ($(snd p)) = true) phrases) by repeat constructor.
  rewrite Forall_forall in N. specialize (N p I).
  apply existsb_exists in N as (c & Ic & Hc). apply negb_true_iff in Hc. unfold holds, mentions in H. destruct H as (a & b & H).
  assert (B' : blanks (if fst p then map lower_c l else l)).
  { destruct (fst p); [|exact B]. apply blanks_iff. apply blanks_iff in B. clear -B. induction l as [|x l IH]; [reflexivity|].
    cbn in *. apply andb_true_iff in B as [B1 B2]. now rewrite space_lower, B1, IH. }
  rewrite H in B'. apply blanks_app in B' as [_ B']. apply blanks_app in B' as [B' _]. apply blanks_iff in B'. rewrite forallb_forall in B'.
  rewrite (B' c Ic) in Hc. discriminate.
Qed.
Lemma trigger_not_blank iter rec F r l : In r (all_rules iter rec F) -> start_of r l = true -> ~ blanks l.
Proof.
  intros I H. apply phrase_not_blank. apply (in_map start_of) in I. rewrite rules_triggers in I. apply in_map_iff in I as (t & E & I).
  apply (covered_fires phrases t); [|now rewrite E]. pose proof phrases_cover as C. rewrite firstn_all, forallb_forall in C. now apply C.
Qed.
(** The branches before the [i]-th are not taken. *)
Definition passes iter rec F (i : nat) (l : str) : Prop := Forall (fun s => s l = false) (firstn i (map start_of (all_rules iter rec F))).
Lemma step_at iter rec F i r l rest st : passes iter rec F i l -> nth_error (all_rules iter rec F) i = Some r ->
  castep_step iter rec F st l rest = try_rules (r :: skipn (S i) (all_rules iter rec F)) l rest st.
Proof.
  intros P E. unfold castep_step. rewrite (try_skip i) by exact P.
  assert (S : skipn i (all_rules iter rec F) = r :: skipn (S i) (all_rules iter rec F)).
  { revert E. generalize (all_rules iter rec F). clear. induction i as [|i IH]; intros [|x rs] E; try discriminate; cbn in *; [now injection E as ->|]. now apply IH. }
  now rewrite S.
Qed.
Lemma block_step iter rec F i s e n act close l b rest st : passes iter rec F i l ->
  nth_error (all_rules iter rec F) i = Some (RBlock s e n false act) -> s l = true -> (forall x, close x <-> e x = true) -> delimited close n b ->
  castep_step iter rec F st l (b ++ rest) = act l (l :: b) rest st.
Proof.
  intros P E Hs Hc D. rewrite (step_at _ _ _ _ _ _ _ _ P E). cbn [try_rules]. unfold if_block, l_from_re. rewrite Hs. cbn [negb].
  pose proof (delimited_scan close e Hc n b rest 0 D) as Q. rewrite Nat.add_0_r in Q. rewrite Q. cbn [orb].
  rewrite l_bool_first; [reflexivity|]. apply nth_error_In in E. apply (trigger_not_blank iter rec F _ _ E Hs).
Qed.
Lemma line_step iter rec F i t act l rest st : passes iter rec F i l ->
  nth_error (all_rules iter rec F) i = Some (RLine t act) -> t l = true -> castep_step iter rec F st l rest = act l [] rest st.
Proof. intros P E Ht. rewrite (step_at _ _ _ _ _ _ _ _ P E). cbn [try_rules]. now rewrite Ht. Qed.
Lemma before_passes iter rec F w i l : forallb (covered (up_to w phrases)) (firstn i triggers) = true -> nothing_before w l -> passes iter rec F i l.
Proof.
  intros C Q. unfold passes. rewrite rules_triggers, firstn_map. apply Forall_map, Forall_forall.
  intros t I. rewrite forallb_forall in C. destruct (fires t l) eqn:E; [|reflexivity]. exfalso.
  apply (covered_fires (up_to w phrases)) in E; [|now apply C]. apply Exists_exists in E as (p & Ip & Hp).
  unfold nothing_before in Q. rewrite Forall_forall in Q. now apply (Q p).
Qed.
Lemma passes_more iter rec F i r l : passes iter rec F i l -> nth_error (all_rules iter rec F) i = Some r -> start_of r l = false -> passes iter rec F (S i) l.
Proof.
  intros P E H. unfold passes in *.
  assert (S : firstn (S i) (map start_of (all_rules iter rec F)) = firstn i (map start_of (all_rules iter rec F)) ++ [start_of r]).
  { revert E. generalize (all_rules iter rec F). clear. induction i as [|i IH]; intros [|x rs] E; try discriminate; [now injection E as ->|].
    cbn [map]. cbn [firstn app]. f_equal. exact (IH rs E). }
  rewrite S. apply Forall_app. now split; [|constructor].
Qed.

(** ** What the branches do *)
Definition with_run (st : cstate) (r : dict) : cstate := {| s_runs := s_runs st; s_run := r; s_mix := s_mix st |}.
Definition acts (act : action) (says : list str -> list effect -> Prop) : Prop := forall l b es' es rest st,
  says (l :: b) es' -> Forall proper es -> s_run st = run_of false es ->
  Forall proper es' /\ act l (l :: b) rest st = Ok (with_run st (run_of false (es ++ es')), rest).
Lemma acts_put k f (says : list str -> pyval -> Prop) : (forall b v, says b v -> f b = Ok v) -> way_of k = IsSet -> k <> "solvation"%string -> acts (put k f) (sets k says).
Proof.
  intros H W N l b e es rest st (v & S & ->) P E. split; [now constructor|]. unfold put, to_run, in_run. rewrite (H _ _ S). cbn [bind].
  now rewrite E, run_sets.
Qed.
Lemma acts_add k f (says : list str -> pyval -> Prop) : (forall b v, says b v -> f b = Ok v) -> way_of k = IsAppended -> acts (add k f) (appends k says).
Proof.
  intros H W l b e es rest st (v & S & ->) P E. split; [now constructor|]. unfold add, to_run, in_run, append_late. rewrite (H _ _ S), E. cbn [bind].
  pose proof (run_appends es k v P W) as A. unfold append_to in *. change (kstr k) with (SpecCastep.name k) in *.
  destruct (dget key_eqb (run_of false es) (SpecCastep.name k)) as [[]|]; try discriminate; injection A as A; cbn [bind]; now rewrite A.
Qed.
Lemma acts_add_val k f (says : list str -> pyval -> Prop) : (forall b v, says b v -> f b = Ok v) -> way_of k = IsAppended -> acts (add_val k f) (appends k says).
Proof.
  intros H W l b e es rest st (v & S & ->) P E. split; [now constructor|]. unfold add_val, to_run, in_run. rewrite (H _ _ S), E. cbn [bind].
  rewrite (run_appends es k v P W). reflexivity.
Qed.
Lemma acts_under k (g : str -> list str -> dict -> result dict) (says : list str -> list effect -> Prop) :
  (forall l b es', says (l :: b) es' -> exists s v, es' = [Files k s v] /\ proper (Files k s v) /\ forall r, g l (l :: b) r = under k (KStr s) v r) -> acts (to_run g) says.
Proof.
  intros H l b e es rest st S P E. destruct (H _ _ _ S) as (s & v & -> & Q & G). split; [now constructor|]. unfold to_run, in_run. rewrite E, G.
  unfold under. rewrite (run_files es k s v P Q). reflexivity.
Qed.
Lemma acts_extend k f (says : list str -> list (key * pyval) -> Prop) : (forall b d, says b d -> f b = Ok d) -> way_of k = IsEntered -> acts (to_run (extend k f)) (enters k says).
Proof.
  intros H W l b e es rest st (d & S & N & ->) P E. split.
  { apply Forall_forall. intros x I. apply in_map_iff in I as (y & <- & _). exact W. }
  unfold to_run, in_run, extend. rewrite E, (H _ _ S). cbn [bind]. rewrite (run_enters k d W N es P).
  destruct (run_has k es P W) as [[X O]|X]; rewrite X; cbn [bind]; [rewrite O|]; reflexivity.
Qed.
Lemma acts_enter k s (g : str -> list str -> dict -> result dict) (says : list str -> pyval -> Prop) :
  (forall l b v r, says (l :: b) v -> g l (l :: b) r = with_dict false TypeError r (kstr k) (fun d => Ok (dset key_eqb d s v))) -> way_of k = IsEntered ->
  acts (to_run g) (enters k (fun b d => exists v, says b v /\ d = [(s, v)])).
Proof.
  intros H W l b e es rest st (d & (v & S & ->) & N & ->) P E. cbn [map fst snd]. split; [now constructor|].
  unfold to_run, in_run. rewrite E, (H _ _ _ _ S), (run_enter es k s v P W). unfold with_dict.
  destruct (run_has k es P W) as [[X O]|X]; rewrite X; cbn [bind]; [rewrite O|]; reflexivity.
Qed.
