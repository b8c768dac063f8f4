(** The blocks and lines of .castep files: which branch takes them and what it stores. *)
From Verif Require Import PyBase PyVal IntStr DictUtil DictFacts PyFacts Regex RegexFacts RegexComplete Stream StreamFacts NeedFacts PhraseFacts TextParsers TextParsersFacts SpecTable
  TextFiles FileParts FileParts4 FileParts5 TypeConv Header NumSpec SpecStr SpecLine NumFacts NumProps SpecMd SpecBands SpecDict
  SpecCastep SpecCastep2 SpecCastep3 CastepFacts PhononFacts Castep2Facts Castep3Facts LangFacts.
From Verif Require Import HeaderFacts BandsFacts CastepRes CastepBlocks CastepNum CastepRows CastepRest CastepFile SpecCastepFile SpecCastepRun CastepFileFacts QuietFacts CastepRunFacts CastepPieces.
From Verif Require Import NumVal HeaderFacts.
From Verif Require CastepFilter StrUtilFacts.
Local Open Scope list_scope.
Local Open Scope nat_scope.

(** ** What the specifications leave open is settled *)
Lemma merged_same (es d d' : dict) : merged es d -> merged es d' -> d = d'.
Proof. intros H H'. rewrite (merged_fun key_eqb key_eqb_spec _ _ H), (merged_fun key_eqb key_eqb_spec _ _ H'). reflexivity. Qed.
Lemma picks_same {A} k (rows : list (key * A)) es : picks k rows es -> forall es', picks k rows es' -> es = es'.
Proof. induction 1; intros es' H'; inversion H'; subst; try congruence; f_equal; auto. Qed.
Lemma settled_same es v v' : settled es v -> settled es v' -> v = v'.
Proof.
  intros H H'. inversion H as [es1 e1 N1 M1 E1|xs1 w1 E1]; inversion H' as [es2 e2 N2 M2 E2|xs2 w2 E2]; subst es.
  - assert (es2 = es1) as ->.
    { clear -E2. revert es1 E2. induction es2 as [|[k x] es2 IH]; intros [|[k' x'] es1] E; try discriminate; [reflexivity|].
      injection E as -> -> E. f_equal. now apply IH. }
    now rewrite (merged_same _ _ _ M1 M2).
  - exfalso. destruct (exists_last N1) as (l & x & ->). rewrite map_app in E2. cbn in E2. now apply app_inj_tail in E2 as [_ E2].
  - exfalso. destruct (exists_last N2) as (l & x & ->). rewrite map_app in E2. cbn in E2. now apply app_inj_tail in E2 as [_ E2].
  - apply app_inj_tail in E2 as [_ E2]. congruence.
Qed.
Lemma merged_keys {V} (es d : list (key * V)) : merged es d -> NoDup (map fst d).
Proof.
  induction 1 as [|its out k v H IH N|its a k v0 b v H IH N]; [constructor| |].
  - rewrite map_app. cbn. apply (NoDup_Add (a := k) (l := map fst out)); [|now split]. rewrite <- (app_nil_r (map fst out)) at 1. apply Add_app.
  - rewrite map_app in *. exact IH.
Qed.
Lemma nested_same rows d d' : nested rows d -> nested rows d' -> d = d'.
Proof.
  intros (out & M & E & H) (out' & M' & E' & H').
  rewrite (merged_fun key_eqb key_eqb_spec _ _ M') in E'. rewrite <- (merged_fun key_eqb key_eqb_spec _ _ M) in E'.
  assert (K : map fst d = map fst d') by congruence. clear M M' E E' out out'.
  revert d' K H'. induction d as [|[k v] d IH]; intros [|[k' v'] d'] K H'; try discriminate; [reflexivity|]. cbn in K. injection K as -> K.
  destruct (H k' v) as (es & P & S); [now left|]. destruct (H' k' v') as (es' & P' & S'); [now left|]. rewrite (picks_same _ _ _ P' _ P) in S'.
  rewrite (settled_same _ _ _ S S'). f_equal. apply IH; [intros; apply H; now right|exact K|intros; apply H'; now right].
Qed.
Lemma as_dict_is f es b v : (exists d, f b = Ok d /\ merged es d) -> is_dict es v -> as_dict f b = Ok v.
Proof. intros (d & E & M) (d' & M' & ->). unfold as_dict. rewrite E. cbn. now rewrite (merged_same _ _ _ M M'). Qed.
Lemma nested_is f rows (b : list str) v : (exists d, f b = Ok d /\ nested rows d) -> is_nested rows v -> rmap (VDict true) (f b) = Ok v.
Proof. intros (d & E & M) (d' & M' & ->). rewrite E. cbn. now rewrite (nested_same _ _ _ M M'). Qed.

(** ** Kinds of blocks *)
Definition supports (K : kind) : Prop := exists i, forall iter rec F, exists s e act,
  nth_error (all_rules iter rec F) i = Some (RBlock s e (k_ends K) false (only F (k_asked K) act)) /\
  (forall l, nothing_before (k_phrase K) l -> k_open K l -> passes iter rec F i l /\ s l = true) /\
  (forall x, k_close K x <-> e x = true) /\ acts act (k_says K).
(** With the phrases before the phrase of the kind absent all earlier branches are passed. *)
Lemma supports_plain K i : (forall iter rec F, exists s e act,
    nth_error (all_rules iter rec F) i = Some (RBlock s e (k_ends K) false (only F (k_asked K) act)) /\
    (forall l, k_open K l -> s l = true) /\ (forall x, k_close K x <-> e x = true) /\ acts act (k_says K)) ->
  forallb (covered (up_to (k_phrase K) phrases)) (firstn i triggers) = true -> supports K.
Proof.
  intros H C. exists i. intros iter rec F. destruct (H iter rec F) as (s & e & act & E & O & Cl & A). exists s, e, act. split; [exact E|]. split; [|now split].
  intros l N Ho. split; [now apply (before_passes _ _ _ (k_phrase K))|now apply O].
Qed.
Lemma blanks_empty x : blanks x <-> empty x = true.
Proof. apply empty_blanks. Qed.
Lemma mentions_has t l : mentions t l -> has_str t l = true.
Proof. intros H. apply mentions_iff in H. exact H. Qed.
Ltac plain_kind i := apply (supports_plain _ i); [intros iter rec F; do 3 eexists; split; [reflexivity|]; cbn [k_open k_close k_says]; split; [|split]|vm_compute; reflexivity].
Ltac dict_put := apply acts_put; [intros b v|reflexivity|discriminate].

Lemma k_cell : supports (nth 0 kinds_1 (magres_kind "" "" 0)).
Proof.
  plain_kind 31.
  - intros l. apply heading_iff.
  - apply blanks_empty.
  - dict_put. intros (rows & L & ->). unfold as_dict. now rewrite (unit_cell_spec _ _ L).
Qed.
Lemma k_positions : supports (nth 1 kinds_1 (magres_kind "" "" 0)).
Proof.
  exists 36. intros iter rec F. do 3 eexists. split; [reflexivity|]. cbn [k_phrase k_open k_close k_says nth kinds_1]. split; [|split].
  - intros l N (M & U & X). split; [|now apply mentions_has].
    assert (P : passes iter rec F 34 l) by (apply (before_passes _ _ _ "Fractional coordinates of atoms"); [vm_compute; reflexivity|exact N]).
    eapply passes_more; [eapply passes_more; [exact P|reflexivity|]|reflexivity|]; cbn [start_of].
    + destruct (re_test _ l) eqn:E; [|reflexivity]. exfalso. apply U.
      apply (must_search (fun c => c) [$"User-defined"]) in E; [|vm_compute; reflexivity]. apply one_in_exact with (ps := [(false, "User-defined"%string)]) in E.
      now inversion_clear E as [? ? Q|? ? Q]; [|inversion Q].
    + destruct (re_test _ l) eqn:E; [|reflexivity]. exfalso. apply X.
      apply (must_search (fun c => c) [$"Mixture"]) in E; [|vm_compute; reflexivity]. apply one_in_exact with (ps := [(false, "Mixture"%string)]) in E.
      now inversion_clear E as [? ? Q|? ? Q]; [|inversion Q].
  - apply ruled_iff.
  - dict_put. intros (rows & L & D). apply (as_dict_is _ _ _ _ (atreg_block _ _ L) D).
Qed.
Lemma k_velocities : supports (nth 2 kinds_1 (magres_kind "" "" 0)).
Proof.
  plain_kind 38; [intros l; apply mentions_has|apply ruled_iff|].
  dict_put. intros (rows & L & D). apply (as_dict_is _ _ _ _ (atreg_block _ _ L) D).
Qed.
Lemma k_spins : supports (nth 3 kinds_1 (magres_kind "" "" 0)).
Proof.
  plain_kind 39; [intros l; apply mentions_has|apply ruled_iff|].
  dict_put. intros (rows & L & D). apply (as_dict_is _ _ _ _ (spins_spec _ _ L) D).
Qed.
Lemma k_kpoints : supports (nth 4 kinds_1 (magres_kind "" "" 0)).
Proof.
  plain_kind 42; [intros l; apply mentions_has|apply blanks_empty|].
  dict_put. intros (es & L & D). apply (as_dict_is _ _ _ _ (kpt_spec _ _ L) D).
Qed.
Lemma stars_iff x : stars_rule x <-> re_test (RSeqs [RBol; ws_star; stars; REol]) x = true.
Proof.
  assert (E : re_test (RSeqs [RBol; ws_star; stars; REol]) x = true <-> re_test (RSeqs [RBol; RSeq ws_star stars; REol]) x = true).
  { rewrite !search_test_iff by reflexivity. cbn [RSeqs]. split; intros (a & b & H & p & s & c & D); exists a, b; (split; [exact H|]); exists p, s, c.
    - destruct D as (p1 & s1 & c1 & D1 & p2 & s2 & c2 & D2 & p3 & s3 & c3 & D3 & D4). exists p1, s1, c1. split; [exact D1|]. exists p3, s3, c3. split; [|exact D4]. now exists p2, s2, c2.
    - destruct D as (p1 & s1 & c1 & D1 & p3 & s3 & c3 & (p2 & s2 & c2 & D2 & D3) & D4). exists p1, s1, c1. split; [exact D1|]. exists p2, s2, c2. split; [exact D2|]. now exists p3, s3, c3. }
  rewrite E, whole_iff by reflexivity. unfold stars_rule. split.
  - intros (a & n & e & Ha & -> & He). exists (a ++ repeat "*"%char (S n)), e. split; [now rewrite app_assoc|]. split; [|exact He].
    apply lang_seq. exists a, (repeat "*"%char (S n)). split; [reflexivity|]. split; [now apply lang_blanks|]. apply lang_row. now exists n.
  - intros (u & e & -> & L & He). apply lang_seq in L as (a & w & -> & La & Lw). apply lang_blanks in La. apply lang_row in Lw as (n & ->).
    exists a, n, e. split; [exact La|]. split; [now rewrite app_assoc|exact He].
Qed.
Lemma block_type_test r l k : block_type r l = Ok k -> re_test r l = true.
Proof. unfold block_type, re_test. destruct (re_search r l); [reflexivity|discriminate]. Qed.
Lemma k_forces : supports (nth 5 kinds_1 (magres_kind "" "" 0)).
Proof.
  plain_kind 45; [intros l (k & H); exact (block_type_test _ _ _ (forces_title _ _ H))|apply stars_iff|].
  apply acts_under with (k := "forces"%string). intros l b e (l' & ls & k & rows & v & [= <- <-] & T & L & D & ->). exists k, v. split; [reflexivity|]. split; [split; [reflexivity|discriminate]|].
  intros r. unfold forces. destruct (forces_block _ _ _ _ T L) as (d & E & M). rewrite E. destruct D as (d' & M' & ->). cbn [bind]. now rewrite (merged_same _ _ _ M M').
Qed.
Lemma k_stresses : supports (nth 6 kinds_1 (magres_kind "" "" 0)).
Proof.
  plain_kind 47; [intros l (k & H); exact (block_type_test _ _ _ (stresses_title _ _ H))|apply stars_iff|].
  apply acts_under with (k := "stresses"%string). intros l b e (l' & ls & k & t & [= <- <-] & T & L & D & ->). exists k, (tensor_value t). split; [reflexivity|]. split; [split; [reflexivity|discriminate]|].
  intros r. unfold stresses. now rewrite (stresses_block _ _ _ _ T L D).
Qed.
Lemma k_phonons : supports (nth 7 kinds_1 (magres_kind "" "" 0)).
Proof.
  plain_kind 48; [intros l; apply mentions_has|apply ruled_iff|].
  dict_put. intros (qs & L & ->). unfold as_listval. now rewrite (phonon_block _ _ L).
Qed.
Lemma k_dynamical : supports (nth 8 kinds_1 (magres_kind "" "" 0)).
Proof.
  plain_kind 50; [intros l; apply heading_iff|apply ruled_iff|].
  dict_put. intros (re & im & vs & L & C & ->). exact (dynamical_spec _ _ _ _ L C).
Qed.
Lemma k_displacements : supports (nth 9 kinds_1 (magres_kind "" "" 0)).
Proof.
  plain_kind 56; [intros l; apply heading_iff|apply ruled_iff|].
  dict_put. intros (rows & L & D). exact (nested_is _ _ _ _ (atom_disp_spec _ _ L) D).
Qed.
Lemma k_mulliken : supports (nth 10 kinds_1 (magres_kind "" "" 0)).
Proof.
  plain_kind 58; [intros l; apply heading_iff|apply ruled_iff|].
  dict_put. intros (es & L & D). apply (as_dict_is _ _ _ _ (popn_spec _ _ L) D).
Qed.
Lemma k_born : supports (nth 11 kinds_1 (magres_kind "" "" 0)).
Proof.
  plain_kind 59; [intros l; apply heading_iff|apply ruled_iff|].
  apply acts_add; [intros b v|reflexivity]. intros (es & L & D). apply (as_dict_is _ _ _ _ (born_spec _ _ L) D).
Qed.
Lemma k_orbitals : supports (nth 12 kinds_1 (magres_kind "" "" 0)).
Proof.
  plain_kind 60; [intros l; apply heading_iff|apply ruled_iff|].
  dict_put. intros (rows & L & D). exact (nested_is _ _ _ _ (orbitals_spec _ _ L) D).
Qed.
Lemma lang_gap u : gap u -> lang ws_plus u.
Proof. intros [B N]. unfold ws_plus, c_space. apply lang_plus. split; [now apply blanks_iff|exact N]. Qed.
Lemma bond_opens l : bond_title l -> re_test (RSeqs [RLit "Bond"; ws_plus; RLit "Population"; ROpt (RSeq ws_plus (RLit "Spin")); ws_plus; RLit "Length"]) l = true.
Proof.
  intros (a & g1 & m & g2 & b & G1 & G2 & M & ->). apply somewhere_iff; [reflexivity|reflexivity|].
  exists a, (text_of "Bond" ++ g1 ++ text_of "Population" ++ m ++ g2 ++ text_of "Length"), b. split; [now rewrite <- !app_assoc|]. cbn [RSeqs].
  apply lang_seq. eexists _, _. split; [reflexivity|]. split; [now apply lang_lit|]. apply lang_seq. eexists _, _. split; [reflexivity|]. split; [now apply lang_gap|].
  apply lang_seq. eexists _, _. split; [reflexivity|]. split; [now apply lang_lit|]. apply lang_seq. eexists _, _. split; [reflexivity|]. split.
  - unfold ROpt. cbn [lang]. destruct M as [->|(g & G & ->)].
    + exists 0. repeat split; lia.
    + exists 1. split; [lia|]. split; [lia|]. cbn [many]. exists (g ++ text_of "Spin"), []. split; [now rewrite app_nil_r|]. split; [|reflexivity].
      exists g, (text_of "Spin"). split; [reflexivity|]. split; [now apply lang_gap|now apply lang_lit].
  - apply lang_seq. eexists _, _. split; [reflexivity|]. split; [now apply lang_gap|now apply lang_lit].
Qed.
Lemma k_bonds : supports (nth 13 kinds_1 (magres_kind "" "" 0)).
Proof.
  plain_kind 61; [intros l; apply bond_opens|apply ruled_iff|].
  dict_put. intros (rows & L & D). apply (as_dict_is _ _ _ _ (bonds_block _ _ L) D).
Qed.
Lemma k_hirshfeld : supports (nth 14 kinds_1 (magres_kind "" "" 0)).
Proof.
  plain_kind 62; [intros l; apply heading_iff|apply ruled_iff|].
  dict_put. intros (rows & L & D). apply (as_dict_is _ _ _ _ (hirshfeld_spec _ _ L) D).
Qed.
Lemma k_dipole : supports (nth 15 kinds_1 (magres_kind "" "" 0)).
Proof.
  plain_kind 78; [intros l; apply framed_iff|apply ruled_iff|].
  dict_put. intros (es & L & D). apply (as_dict_is _ _ _ _ (dipole_spec _ _ L) D).
Qed.
Lemma acts_magres task : acts (add_val "magres" (as_dict (parse_magres_block task))) (k_says (magres_kind "" "" task)).
Proof.
  cbn [magres_kind k_says]. apply acts_add_val; [intros b v|reflexivity]. intros (rows & d & L & M & ->). destruct (magres_spec _ _ _ L) as (d' & E & M').
  unfold as_dict. rewrite E. cbn [rmap bind]. now rewrite (merged_same _ _ _ M M').
Qed.
Lemma k_magres0 : supports (nth 16 kinds_1 (magres_kind "" "" 0)).
Proof. plain_kind 79; [intros l; apply framed_iff|apply ruled_iff|apply acts_magres]. Qed.
Lemma k_magres1 : supports (nth 17 kinds_1 (magres_kind "" "" 0)).
Proof. plain_kind 80; [intros l; apply framed_iff|apply ruled_iff|apply acts_magres]. Qed.
Lemma k_magres2 : supports (nth 18 kinds_1 (magres_kind "" "" 0)).
Proof. plain_kind 81; [intros l; apply framed_iff|apply ruled_iff|apply acts_magres]. Qed.
Lemma j_opens t l : t = "Isotropic J-coupling"%string \/ t = "Anisotropic J-coupling"%string -> framed "|" t l ->
  table (RSeq (RAlt (RLit "I") (RLit "Ani")) (RLit "sotropic J-coupling")) (RChar "|") l = true.
Proof.
  intros T (a & g & g' & b & Ha & Hg & Hg' & Hb & ->). unfold table. apply table_split; [reflexivity|reflexivity|reflexivity|reflexivity|].
  exists a, ["|"%char], g, (text_of t), g', ["|"%char], b. repeat match goal with |- _ /\ _ => split end; try assumption; try (now apply lang_char); [|reflexivity].
  apply lang_seq. destruct T as [->| ->].
  - exists (text_of "I"), (text_of "sotropic J-coupling"). split; [reflexivity|]. split; [left; now apply lang_lit|now apply lang_lit].
  - exists (text_of "Ani"), (text_of "sotropic J-coupling"). split; [reflexivity|]. split; [right; now apply lang_lit|now apply lang_lit].
Qed.
Lemma k_magres3 : supports (nth 19 kinds_1 (magres_kind "" "" 0)).
Proof. plain_kind 82; [intros l; apply j_opens; now left|apply ruled_iff|apply acts_magres]. Qed.
Lemma k_magres4 : supports (nth 20 kinds_1 (magres_kind "" "" 0)).
Proof. plain_kind 82; [intros l; apply j_opens; now right|apply ruled_iff|apply acts_magres]. Qed.
Lemma k_magres5 : supports (nth 21 kinds_1 (magres_kind "" "" 0)).
Proof. plain_kind 83; [intros l; apply framed_iff|apply ruled_iff|apply acts_magres]. Qed.
Lemma kinds_1_supported : Forall supports kinds_1.
Proof.
  repeat (apply Forall_cons; [first [exact k_cell|exact k_positions|exact k_velocities|exact k_spins|exact k_kpoints|exact k_forces|exact k_stresses|exact k_phonons|exact k_dynamical
    |exact k_displacements|exact k_mulliken|exact k_born|exact k_orbitals|exact k_bonds|exact k_hirshfeld|exact k_dipole|exact k_magres0|exact k_magres1|exact k_magres2|exact k_magres3
    |exact k_magres4|exact k_magres5]|]). apply Forall_nil.
Qed.

(** ** Kinds of lines *)
Definition gated (F : filters) (fs : list filt) (act : action) : action := match fs with [] => act | x :: _ => only F x act end.
Definition line_acts (act : action) (says : str -> effect -> Prop) : Prop := forall l e es rest st,
  says l e -> Forall proper es -> s_run st = run_of false es -> proper e /\ act l [] rest st = Ok (with_run st (run_of false (es ++ [e])), rest).
Definition supports_line (K : line_kind) : Prop := (l_asked K = [] \/ exists x, l_asked K = [x]) /\ exists i, forall iter rec F, exists t act,
  nth_error (all_rules iter rec F) i = Some (RLine t (gated F (l_asked K) act)) /\
  (forall l, nothing_before (l_phrase K) l -> l_open K l -> passes iter rec F i l /\ t l = true) /\ line_acts act (l_says K).
Lemma supports_line_plain K i : (l_asked K = [] \/ exists x, l_asked K = [x]) -> (forall iter rec F, exists t act,
    nth_error (all_rules iter rec F) i = Some (RLine t (gated F (l_asked K) act)) /\ (forall l, l_open K l -> t l = true) /\ line_acts act (l_says K)) ->
  forallb (covered (up_to (l_phrase K) phrases)) (firstn i triggers) = true -> supports_line K.
Proof.
  intros Ha H C. split; [exact Ha|]. exists i. intros iter rec F. destruct (H iter rec F) as (t & act & E & O & A). exists t, act. split; [exact E|]. split; [|exact A].
  intros l N Ho. split; [now apply (before_passes _ _ _ (l_phrase K))|now apply O].
Qed.
Ltac plain_line i := apply (supports_line_plain _ i); [first [now left|right; eexists; reflexivity]|intros iter rec F; do 2 eexists; split; [reflexivity|]; cbn [l_open l_says]; split|vm_compute; reflexivity].
Lemma begins_starts t l : begins t l -> startswith ($t) l = true.
Proof. intros H. now apply begins_iff in H. Qed.
Lemma acts_put_line k f (says : str -> effect -> Prop) : (forall l e, says l e -> exists v, e = Sets k v /\ f l = Ok v) -> way_of k = IsSet -> k <> "solvation"%string ->
  line_acts (put_line k f) says.
Proof.
  intros H W N l e es rest st S P E. destruct (H _ _ S) as (v & -> & V). split; [now split|]. unfold put_line, to_run, in_run. rewrite V. cbn [bind]. now rewrite E, run_sets.
Qed.
Lemma late_now d k v : append_late d k (Ok v) = append_to d k v.
Proof. unfold append_late, append_to. destruct (dget key_eqb d k) as [[]|]; reflexivity. Qed.
Lemma acts_energy (g : str -> result pyval) s (says : str -> effect -> Prop) :
  (forall l e, says l e -> exists f, e = Files "energies" (text_of s) (VFloat f) /\ g l = Ok (VFloat f)) -> line_acts (to_run (fun l _ r => CastepFile.energy s (g l) r)) says.
Proof.
  intros H l e es rest st S P E. destruct (H _ _ S) as (f & -> & G).
  assert (Q : proper (Files "energies" (text_of s) (VFloat f))) by (split; [reflexivity|intros _; now exists f]). split; [exact Q|].
  unfold to_run, in_run, CastepFile.energy. rewrite E, G. pose proof (run_files es "energies" (text_of s) (VFloat f) P Q) as R.
  unfold with_dict in *. destruct (dget key_eqb (run_of false es) (kstr "energies")) as [[]|]; try discriminate; rewrite late_now;
    change (kstr s) with (KStr (text_of s)); now rewrite R.
Qed.
Lemma last_snoc {A} (l : list A) x : last_item (l ++ [x]) = Ok x.
Proof. unfold last_item. now rewrite rev_app_distr. Qed.
Lemma last_num ns n l : number_line (ns ++ [n]) l -> fits (num_value n) -> last_number l = Ok (SpecCastep.float_of n).
Proof.
  intros H Hf. unfold last_number. rewrite (get_numbers_line _ _ H), map_app. cbn [map]. rewrite last_snoc. cbn [bind]. apply CellPosFacts.float_of_num; [|exact Hf].
  pose proof (number_line_ok _ _ H) as W. apply Forall_app in W as [_ W]. inversion_clear W. now apply num_ok_wf.
Qed.
Lemma energy_acts s l0 : l_says l0 = (fun l e => exists ns n, number_line (ns ++ [n]) l /\ fits (num_value n) /\ e = Files "energies" (text_of s) (SpecCastep.float_of n)) ->
  line_acts (energy_line s) (l_says l0).
Proof.
  intros ->. unfold energy_line. apply (acts_energy last_number). intros l e (ns & n & H & Hf & ->). exists (FQ (Qred (num_value n))). split; [reflexivity|].
  exact (last_num _ _ _ H Hf).
Qed.
Lemma seq_more r1 r2 u t : free r1 = true -> lang r1 u -> (forall p c, exists p' s' c', den r2 p t c p' s' c') ->
  forall p c, exists p' s' c', den (RSeq r1 r2) p (u ++ t) c p' s' c'.
Proof.
  intros Fr L H p c. destruct (lang_den r1 u p t c Fr L) as (c1 & D1). destruct (H (pa p u) c1) as (p' & s' & c' & D2). exists p', s', c', (pa p u), t, c1. now split.
Qed.
Lemma free_opens l : free_energy l -> re_match_test FREE_ENERGY_RE l = true.
Proof.
  intros (a & b & n & r & -> & (W1 & W2 & W3) & Fr & T). apply match_test_iff; [reflexivity|].
  destruct n as [sg i fr ex]. cbn [n_frac] in Fr. destruct fr as [f|]; [|congruence].
  set (x := match ex with Some (cap, s, e) => (if cap then "E"%char else "e"%char) :: write_sign s ++ write_digits e | None => [] end ++ r).
  assert (Hx : hd_not is_digit x).
  { unfold x. destruct ex as [[[[] s] e]|]; [reflexivity|reflexivity|]. cbn [app]. destruct r as [|c r]; [exact I|]. cbn. specialize (T c r eq_refl). 
    destruct c as [[] [] [] [] [] [] [] []]; try reflexivity; apply blank_iff in T; discriminate T. }
  assert (E : write_num {| n_sign := sg; n_int := i; n_frac := Some f; n_exp := ex |} ++ r = (write_sign sg ++ mant_frac i f) ++ x).
  { unfold write_num, mant_frac, x. cbn [n_sign n_int n_frac n_exp]. repeat (rewrite <- !app_assoc; cbn [app]). reflexivity. }
  rewrite E. clear E. unfold FREE_ENERGY_RE. cbn [RSeqs].
  apply (seq_more (RLit "Final free energy (E-TS)") _ (text_of "Final free energy (E-TS)")); [reflexivity|now apply lang_lit|].
  apply seq_more; [reflexivity|apply (lang_row " "); now exists a|].
  apply (seq_more (RChar "=") _ ["="%char]); [reflexivity|now apply lang_char|].
  apply seq_more; [reflexivity|apply (lang_row " "); now exists b|].
  intros p c. exists (pa p (write_sign sg ++ mant_frac i f)), x, c. right. apply ColumnFacts.fp_den. now apply fp_FNUMBER.
Qed.
Lemma lines_1_supported : Forall supports_line line_kinds_1.
Proof.
  apply Forall_cons.
  { plain_line 3; [intros l; apply begins_starts|]. apply acts_put_line; [|reflexivity|discriminate]. intros l e (n & ns & H & Hf & ->). eexists. split; [reflexivity|].
    exact (at_builtin l (n :: ns) 0 n H eq_refl Hf). }
  apply Forall_cons.
  { plain_line 4; [intros l; apply begins_starts|]. apply acts_put_line; [|reflexivity|discriminate]. intros l e (ws & w & H & ->). eexists. split; [reflexivity|].
    rewrite (StrUtilFacts.split_cut _ _ H), last_snoc. reflexivity. }
  apply Forall_cons.
  { plain_line 10; [intros l; apply mentions_has|]. apply acts_put_line; [|reflexivity|discriminate]. intros l e (ns & H & Hf & ->). eexists. split; [reflexivity|].
    unfold numbers_as. rewrite (get_numbers_line _ _ H). apply tuple_fit; [|exact Hf]. apply Forall_wf, (number_line_ok _ _ H). }
  apply Forall_cons. { plain_line 23; [intros l; apply begins_starts|]. exact (energy_acts "final_energy" (SpecCastepRun.energy "" "final_energy" true) eq_refl). }
  apply Forall_cons. { plain_line 24; [intros l; apply mentions_has|]. exact (energy_acts "final_basis_set_corrected" (SpecCastepRun.energy "" "final_basis_set_corrected" true) eq_refl). }
  apply Forall_cons. { plain_line 25; [intros l; apply mentions_has|]. exact (energy_acts "est_0K" (SpecCastepRun.energy "" "est_0K" true) eq_refl). }
  apply Forall_cons. { plain_line 26; [intros l; apply begins_starts|]. exact (energy_acts "sedc_correction" (SpecCastepRun.energy "" "sedc_correction" true) eq_refl). }
  apply Forall_cons. { plain_line 27; [intros l; apply begins_starts|]. exact (energy_acts "disperson_corrected" (SpecCastepRun.energy "" "disperson_corrected" true) eq_refl). }
  apply Forall_cons. { plain_line 28; [exact free_opens|]. exact (energy_acts "free_energy" (SpecCastepRun.energy "" "free_energy" true) eq_refl). }
  apply Forall_cons.
  { plain_line 29; [intros l; apply begins_starts|]. unfold solvation.
    apply (acts_energy (fun l => vs <- to_types TFloat (get_numbers l) ;; match vs with [v] => Ok v | _ => Err TypeError end) "solvation").
    intros l e (n & H & Hf & ->). eexists. split; [reflexivity|]. rewrite (get_numbers_line _ _ H), types_floats; [reflexivity| |now constructor].
    apply Forall_wf, (number_line_ok _ _ H). }
  apply Forall_nil.
Qed.

