(** Facts about the blocks of .castep files that have a row for every atom. *)
From Coq Require Import QArith Qreduction.
From Verif Require Import PyBase PyFacts PyVal Regex RegexFacts RegexComplete CastepRes NumSpec NumFacts NumProps NumVal
  StrUtil SpecStr StrUtilFacts SpecLine SpecType TypeConv TypeConvFacts IntStr DictUtil SpecDict DictFacts Stream StreamFacts TextParsers TextFiles
  SpecTable ColumnFacts Header HeaderFacts SpecMd MdFacts SpecBands NeedFacts SpecCastep CastepBlocks CastepFacts PhononFacts
  SpecCastep2 CastepNum Castep2Facts SpecCastep3 CastepRows.
From Verif Require CellFacts CellPosFacts CellBlockFacts FileParts3.
Local Open Scope list_scope.
Local Open Scope nat_scope.

(** ** The text after a piece *)
Lemma hd_blanks f g s : (forall c, is_space c = true -> f c = false) -> forallb is_space g = true -> hd_not f s -> hd_not f (g ++ s).
Proof. intros H Hg Hs. destruct g as [|x g]; [exact Hs|]. cbn in Hg |- *. apply andb_true_iff in Hg as [Hx _]. auto. Qed.
Lemma hd_gap f g s : (forall c, is_space c = true -> f c = false) -> forallb is_space g = true -> g <> [] -> hd_not f (g ++ s).
Proof. intros H Hg H0. destruct g as [|x g]; [congruence|]. cbn in Hg |- *. apply andb_true_iff in Hg as [Hx _]. auto. Qed.
Lemma gap_token g s : forallb is_space g = true -> g <> [] -> token_end (g ++ s).
Proof. intros Hg H0. apply token_end_hd. apply hd_gap; auto. intros c ->. reflexivity. Qed.
Lemma atom_hd f u at_ s : numbered_atom u at_ -> (forall c, is_upper c = true -> f c = false) -> hd_not f (u ++ s).
Proof. intros [sp g ds Hsp _ _ _] H. rewrite <- !app_assoc. now apply species_hd. Qed.
Lemma columns_gap f ns t s : columns ns t -> (forall c, is_space c = true -> f c = false) -> hd_not f s -> hd_not f (t ++ s).
Proof. intros [|g n ns' t' Hg H0 _ _] H Hs; [exact Hs|]. rewrite <- app_assoc. apply hd_gap; [exact H|now apply blanks_iff|exact H0]. Qed.
Lemma edge_char p x : is_word x = false -> at_edge (pa p [x]).
Proof. intros H c E. cbn in E. injection E as <-. exact H. Qed.
Lemma edge_gap p g : forallb is_space g = true -> g <> [] -> at_edge (pa p g).
Proof.
  intros Hg H0 c E. rewrite pa_rev in E. destruct (rev g) as [|x r] eqn:Er; [apply (f_equal (@rev ascii)) in Er; rewrite rev_involutive in Er; contradiction|].
  injection E as ->. apply space_not_word. rewrite forallb_forall in Hg. apply Hg, in_rev. rewrite Er. now left.
Qed.
Lemma bar_not_space : forall c, is_upper c = true -> is_space c = false.
Proof. apply upper_not_space. Qed.

(** Captures of a row that begins with an atom. *)
Definition atom_caps (at_ : atom) (ds : list digit) : caps := [("index"%string, write_digits ds); ("spec"%string, fst at_)].
Lemma atom_entry x at_ ds : cap (m_caps x) "index" = Some (write_digits ds) -> cap (m_caps x) "spec" = Some (fst at_) ->
  ds <> [] -> decimal ds = snd at_ -> atreg_match x = Ok (SpecDict.atom_key at_).
Proof.
  intros E1 E2 Hd Ed. unfold atreg_match, group_s. rewrite E1, E2, py_int_digits, Ed by exact Hd. destruct at_. reflexivity.
Qed.
Lemma group_float x n k : cap (m_caps x) k = Some (write_num n) -> num_wf n -> fits (num_value n) -> float_group x k = Ok (float_of n).
Proof. intros E Hw Hf. unfold float_group, group_s. rewrite E, builtin_num by assumption. reflexivity. Qed.
Lemma fixed_ok n : fixed n -> num_ok n.
Proof. now intros (H & _). Qed.
Lemma type_float n : num_wf n -> fits (num_value n) -> to_type TFloat (VStr (write_num n)) = Ok (float_of n).
Proof. intros. now apply CellPosFacts.float_of_num. Qed.
Lemma match_hit r t s c' : fp r None t s [] c' -> exists x, re_match r (t ++ s) = Some x /\ m_caps x = c'.
Proof. intros F. apply fp_match_at in F. unfold re_match. eexists. split; [exact F|reflexivity]. Qed.
Lemma lacking_match P r l cs : needs is_digit r = true -> needs P r = true -> (forall c, P c = true -> among cs c) -> lacking cs l -> re_match r l = None.
Proof. intros H1 H2 Hc [H|H]; [apply (needs_match is_digit)|apply (needs_match P)]; auto; [now apply lacks_digits|now apply (lacks_free cs)]. Qed.
Lemma plain_match r l : needs is_digit r = true -> needs is_upper r = true -> plain l -> re_match r l = None.
Proof. intros H1 H2 [H|H]; [apply (needs_match is_digit), lacks_digits|apply (needs_match is_upper), lacks_capitals]; auto. Qed.

Ltac tidy := cbn [concat app]; repeat (progress (rewrite ?app_nil_r, <- ?app_assoc; cbn [app])).

(** ** Hirshfeld charges *)
Lemma charge_match l r : charge_row l r -> exists x, re_match HIRSHFELD_RE l = Some x /\
  (k <- atreg_match x ;; v <- float_group x "charge" ;; Ok (k, v)) = Ok (charge_entry r).
Proof.
  intros [a u at_ g n s Ha Hu Hg Hn Hf Hs]. apply gap_iff in Ha as [Ha Ha0], Hg as [Hg Hg0].
  destruct (fp_atom (pa None a) u at_ (g ++ write_num n ++ s) [] (edge_gap _ _ Ha Ha0) Hu) as (ds & F & Hd & Ed).
  { apply hd_gap; auto using space_not_digit. }
  destruct (match_hit HIRSHFELD_RE (concat [a; u; g; write_num n]) s (("charge"%string, write_num n) :: atom_caps at_ ds)) as (x & Ex & Ec).
  { unfold HIRSHFELD_RE. apply fp_seqs.
    eapply fpl_cons; [apply fp_plus_chr; [exact Ha|exact Ha0|tidy; eapply atom_hd; [exact Hu|exact upper_not_space]]|].
    eapply fpl_cons; [tidy; exact F|].
    eapply fpl_cons; [apply fp_plus_chr; [exact Hg|exact Hg0|tidy; apply num_hd, fixed_ok, Hn]|].
    eapply fpl_cons; [apply fp_grp, fixed_fp; [exact Hn|tidy; now apply token_end_digit]|]. constructor. }
  exists x. split; [revert Ex; tidy; auto|].
  rewrite (atom_entry x at_ ds), (group_float x n); try (rewrite Ec; reflexivity); auto. apply num_ok_wf, fixed_ok, Hn.
Qed.
Lemma hirshfeld_spec ls rows : laid charge_row plain ls rows -> exists d, process_hirshfeld ls = Ok d /\ merged (map charge_entry rows) d.
Proof. apply dict_rows_laid; [apply charge_match|]. intros l. apply plain_match; vm_compute; reflexivity. Qed.

(** Blanks and columns within a row. *)
Lemma fp_wl names ns t rs ts p s c c2 : columns ns t -> length names = length ns -> names <> [] -> token_end (concat ts ++ s) -> rs <> [] ->
  fpl rs (pa p t) ts s (row_caps names ns c) c2 -> fp (RSeqs (ws_star :: labelled_floats names :: rs)) p (t ++ concat ts) s c c2.
Proof.
  intros Ht Hl Hn Hs Hr F. destruct rs as [|r rs]; [congruence|]. cbn [RSeqs]. apply FileParts3.fp_seq_assoc.
  eapply fp_seq; [apply fp_ws_labelled; eassumption|]. now apply (fp_seqs (r :: rs)).
Qed.

(** ** Initial spins *)
Lemma tf_hd (b : bool) : is_space (if b then "T" else "F")%char = false.
Proof. now destruct b. Qed.
Definition spin_atoms : list re := [ws_star; RChar "|"; ws_star; ATOM_RE].
Lemma spin_match l r : SpecCastep3.spin_row l r -> exists x, re_match SPIN_RE l = Some x /\
  (k <- atreg_match x ;;
   d <- fix_data_types (row_dict SPIN_RE x) (as_floats ["spin"; "magmom"]%string) ;;
   Ok (k, VDict false (dset key_eqb d (kstr "fix") (VBool (str_eqb (group_s x "fix") ($"T")))))) = Ok (spin_entry r).
Proof.
  intros [a g u at_ t s m g2 b g3 r' Ha Hg Hu Ht Hf Hg2 Hg3]. apply gap_iff in Hg2 as [Hg2 Hg20]. apply blanks_iff in Ha, Hg, Hg3.
  set (z := (if b then "T" else "F")%char).
  destruct (fp_atom (pa (pa (pa None a) ["|"%char]) g) u at_ (t ++ g2 ++ z :: g3 ++ "|"%char :: r') [] ) as (ds & F & Hd & Ed); [|exact Hu| |].
  { apply edge_blanks; [now apply edge_char|exact Hg]. }
  { eapply columns_gap; [exact Ht|exact space_not_digit|]. apply hd_gap; auto using space_not_digit. }
  destruct (match_hit SPIN_RE (concat [a; ["|"%char]; g; u] ++ t ++ concat [g2; [z]; g3; ["|"%char]]) r'
             (("fix"%string, [z]) :: row_caps ["spin"; "magmom"]%string [s; m] (atom_caps at_ ds))) as (x & Ex & Ec).
  { unfold SPIN_RE. apply (fp_seqs_app spin_atoms _ None _ _ _ _ (atom_caps at_ ds)); [discriminate..| |].
    - apply fp_seqs.
      eapply fpl_cons; [apply fp_star_chr; [exact Ha|tidy; reflexivity]|].
      eapply fpl_cons; [apply fp_char|].
      eapply fpl_cons; [apply fp_star_chr; [exact Hg|tidy; eapply atom_hd; [exact Hu|exact upper_not_space]]|].
      eapply fpl_cons; [tidy; exact F|]. constructor.
    - apply (fp_wl _ [s; m]); [exact Ht|reflexivity|discriminate|tidy; now apply gap_token|discriminate|].
      eapply fpl_cons; [apply fp_star_chr; [exact Hg2|tidy; apply tf_hd]|].
      eapply fpl_cons; [apply fp_grp, fp_chr; unfold z; now destruct b|].
      eapply fpl_cons; [apply fp_star_chr; [exact Hg3|tidy; reflexivity]|].
      eapply fpl_cons; [apply fp_char|]. constructor. }
  exists x. split; [revert Ex; tidy; auto|].
  pose proof (Forall_wf _ (CellFacts.columns_ok _ _ Ht)) as W. inversion W as [|? ? W1 W']; subst. inversion W' as [|? ? W2 _]; subst.
  inversion Hf as [|? ? F1 F']; subst. inversion F' as [|? ? F2 _]; subst.
  rewrite (atom_entry x at_ ds); try (rewrite Ec; reflexivity); auto. cbn [bind].
  assert (E : row_dict SPIN_RE x = [(kstr "spin", VStr (write_num s)); (kstr "magmom", VStr (write_num m)); (kstr "fix", VStr [z])]).
  { unfold row_dict, groupdict. change (group_names SPIN_RE) with ["spec"; "index"; "spin"; "magmom"; "fix"]%string. rewrite Ec. reflexivity. }
  rewrite E. unfold as_floats. cbn [map].
  rewrite (fix_step _ _ _ _ (VStr (write_num s)) (float_of s)); [|reflexivity|now apply type_float].
  rewrite (fix_step _ _ _ _ (VStr (write_num m)) (float_of m)); [|reflexivity|now apply type_float].
  assert (G : group_s x "fix" = [z]) by (unfold group_s; rewrite Ec; reflexivity). rewrite G. unfold z. now destruct b.
Qed.
Lemma among_bar c : Ascii.eqb "|" c = true -> among "|" c.
Proof. intros H. apply Ascii.eqb_eq in H. subst c. now left. Qed.
Lemma spins_spec ls rows : laid SpecCastep3.spin_row (lacking "|") ls rows ->
  exists d, process_initial_spins ls = Ok d /\ merged (map spin_entry rows) d.
Proof.
  apply dict_rows_laid; [apply spin_match|]. intros l.
  apply (lacking_match (Ascii.eqb "|")); [vm_compute; reflexivity..|exact among_bar].
Qed.

(** ** Born charges *)
Lemma fixed_cols ns t : columns ns t -> Forall fixed ns -> forall s, hd_not is_digit s ->
  exists ts, concat ts = t /\ length ts = length ns /\ forall p c, fps (RSeq ws_star FNUMBER_RE) p ts s c c.
Proof.
  induction 1 as [|g n ns t Hg Hg0 Hn Ht IH]; intros Hfx s Hs.
  - exists []. repeat split; auto. intros. constructor.
  - inversion Hfx as [|? ? Hf1 Hf2]; subst. destruct (IH Hf2 s Hs) as (ts & E & El & F). exists ((g ++ write_num n) :: ts). cbn [concat length].
    rewrite E, El, app_assoc. split; [reflexivity|]. split; [reflexivity|].
    intros p c. apply blanks_iff in Hg. econstructor; [|apply F]. rewrite E.
    eapply fp_seq; [apply fp_star_chr; [exact Hg|now apply num_hd]|]. apply fixed_fp; [exact Hf1|].
    eapply columns_gap; [exact Ht|exact space_not_digit|exact Hs].
Qed.
Definition label_re : re := RSeqs [ws_star; RLit "ID="; RGrp "label" (RPlus c_nspace)].
Lemma born_label_fp s lab p c : born_label s lab -> exists t r, s = t ++ r /\
  fp (ROpt label_re) p t r c (match lab with Some w => ("label"%string, w) :: c | None => c end).
Proof.
  intros [s0 H _|g w r Hg Hw Hc Hr].
  - exists [], s0. split; [reflexivity|]. apply fp_opt_none. apply nomatch_den. intros p' s' c' D. unfold label_re in D. cbn [RSeqs] in D.
    destruct D as (p1 & s1 & c1 & D1 & p2 & s2 & c2 & D2 & _). apply den_ws in D1 as (w & -> & Hw). apply den_lit in D2 as (-> & _ & _).
    apply (H w s2); [now apply blanks_iff|reflexivity].
  - apply gap_iff in Hg as [Hg Hg0]. exists (concat [g; $"ID="; w]), r. split; [tidy; reflexivity|].
    apply fp_opt_some; [destruct g; [congruence|discriminate]|]. unfold label_re. apply fp_seqs.
    eapply fpl_cons; [apply fp_star_chr; [exact Hg|reflexivity]|]. eapply fpl_cons; [apply fp_lit|].
    eapply fpl_cons; [apply fp_grp, fp_plus_chr; [|exact Hw|tidy; now apply token_end_hd]|constructor].
    apply forallb_forall. intros x Hx. apply negb_true_iff. destruct (is_space x) eqn:E; [|reflexivity]. exfalso. apply (Hc x Hx). now apply blank_iff.
Qed.
Lemma label_digit s lab : born_label s lab -> hd_not is_digit s.
Proof. intros [s0 _ H|g w r Hg _ _ _]; [now apply token_end_digit|]. apply gap_iff in Hg as [Hg Hg0]. apply hd_gap; auto using space_not_digit. Qed.
Lemma words_read ns l : words_are ns l -> to_tuple TFloat (split l) = Ok (vector ns).
Proof. intros (H & Hw & Hf). rewrite (split_cut _ _ H). apply tuple_fit; [now apply Forall_wf|exact Hf]. Qed.
Lemma born_row_match a u at_ t ns s lab : gap a -> numbered_atom u at_ -> columns ns t -> length ns = 3 -> Forall fixed ns -> born_label s lab ->
  exists x ds, re_match BORN_RE (a ++ u ++ t ++ s) = Some x /\ ds <> [] /\ decimal ds = snd at_ /\
    m_caps x = match lab with Some w => ("label"%string, w) :: ("charges"%string, t) :: atom_caps at_ ds | None => ("charges"%string, t) :: atom_caps at_ ds end.
Proof.
  intros Ha Hu Ht Hl Hx Hs. apply gap_iff in Ha as [Ha Ha0].
  destruct (fp_atom (pa None a) u at_ (t ++ s) [] (edge_gap _ _ Ha Ha0) Hu) as (ds & F & Hd & Ed).
  { eapply columns_gap; [exact Ht|exact space_not_digit|now apply label_digit with (lab := lab)]. }
  destruct (born_label_fp s lab (pa (pa (pa None a) u) t) (("charges"%string, t) :: atom_caps at_ ds) Hs) as (t1 & r & -> & Fl).
  destruct (fixed_cols ns t Ht Hx (t1 ++ r)) as (ts & Et & El & Fs); [now apply label_digit with (lab := lab)|].
  destruct (match_hit BORN_RE (concat [a; u; t; t1]) r (match lab with Some w => ("label"%string, w) :: ("charges"%string, t) :: atom_caps at_ ds | None => ("charges"%string, t) :: atom_caps at_ ds end)) as (x & Ex & Ec).
  { unfold BORN_RE. apply fp_seqs.
    eapply fpl_cons; [apply fp_plus_chr; [exact Ha|exact Ha0|tidy; eapply atom_hd; [exact Hu|exact upper_not_space]]|].
    eapply fpl_cons; [tidy; exact F|].
    eapply fpl_cons; [apply fp_grp; tidy; rewrite <- Et at 1; apply fp_times; [congruence|apply Fs]|].
    eapply fpl_cons; [tidy; exact Fl|]. constructor. }
  exists x, ds. split; [revert Ex; tidy; auto|]. auto.
Qed.
Lemma born_other l : plain l -> re_match BORN_RE l = None.
Proof. apply plain_match; vm_compute; reflexivity. Qed.
Lemma born_spec ls es : in_turn born_item ls es -> exists d, process_born ls = Ok d /\ merged es d.
Proof.
  apply turn_merged. intros b fs [a u at_ t ns s lab l2 ns2 l3 ns3 Ha Hu Ht Hl Hx Hf Hs H2 H3|l Hl].
  - eexists _, [l2; l3]. split; [reflexivity|]. intros st more. unfold born_step.
    destruct (born_row_match a u at_ t ns s lab Ha Hu Ht Hl Hx Hs) as (x & ds & -> & Hd & Ed & Ec).
    assert (G1 : group_s x "charges" = t) by (unfold group_s; rewrite Ec; destruct lab; reflexivity).
    assert (G2 : group_s x "spec" = fst at_) by (unfold group_s; rewrite Ec; destruct lab; reflexivity).
    assert (G3 : group_s x "index" = write_digits ds) by (unfold group_s; rewrite Ec; destruct lab; reflexivity).
    assert (G4 : cap (m_caps x) "label" = lab) by (rewrite Ec; destruct lab; reflexivity).
    rewrite G1, G2, G3, G4, (FileParts.columns_split _ _ Ht), tuple_fit; [|apply Forall_wf, (CellFacts.columns_ok _ _ Ht)|exact Hf].
    cbn [bind next_line app]. rewrite (words_read _ _ H2). cbn [bind]. rewrite (words_read _ _ H3). cbn [bind].
    rewrite py_int_digits, Ed by exact Hd. cbn [bind]. unfold dupdate. cbn [fold_left fst snd]. unfold born_key. destruct at_ as [sp i], lab as [w|]; reflexivity.
  - exists l, []. split; [reflexivity|]. intros st more. unfold born_step. rewrite (born_other l Hl). reflexivity.
Qed.

(** ** A dictionary of dictionaries *)
Definition pick {A} (k : key) (rows : list (key * A)) : list A := map snd (filter (fun kv => key_eqb (fst kv) k) rows).
Lemma pick_picks {A} k (rows : list (key * A)) : picks k rows (pick k rows).
Proof.
  induction rows as [|[k' a] rows IH]; [constructor|]. unfold pick. cbn [filter fst]. destruct (key_eqb k' k) eqn:E.
  - apply TextParsersFacts.key_eqb_eq in E. subst k'. cbn [map snd]. now constructor.
  - constructor; [|exact IH]. intros ->. rewrite TextParsersFacts.key_eqb_refl' in E. discriminate.
Qed.
Lemma pick_snoc {A} k (rows : list (key * A)) k' a : pick k (rows ++ [(k', a)]) = pick k rows ++ (if key_eqb k' k then [a] else []).
Proof. unfold pick. rewrite filter_app, map_app. f_equal. cbn [filter fst]. now destruct (key_eqb k' k). Qed.
Lemma pick_in {A} k (rows : list (key * A)) a : In a (pick k rows) -> In (k, a) rows.
Proof.
  unfold pick. intros H. apply in_map_iff in H as ([k' a'] & <- & H). apply filter_In in H as [H E]. cbn in E. apply TextParsersFacts.key_eqb_eq in E. now subst k'.
Qed.
Lemma pick_none {A} k (rows : list (key * A)) : ~ In k (map fst rows) -> pick k rows = [].
Proof.
  intros H. destruct (pick k rows) as [|a l] eqn:E; [reflexivity|]. exfalso. apply H.
  assert (I : In a (pick k rows)) by (rewrite E; now left). apply pick_in in I. now apply (in_map fst) in I.
Qed.
Lemma dset_merged {V} (its out : list (key * V)) k v : merged its out -> merged (its ++ [(k, v)]) (dset key_eqb out k v).
Proof. intros H. rewrite (merged_fun key_eqb key_eqb_spec _ _ H), <- (dict_of_snoc key_eqb). apply merged_dict_of, key_eqb_spec. Qed.
Notation nest_row := (key * (option key * pyval))%type (only parsing).
Definition nest_step (d : dict) (r : nest_row) : result dict :=
  match r with
  | (k, (Some o, v)) => set_orbital d k o v
  | (k, (None, v)) => Ok (dset key_eqb d k v)
  end.
Definition unmixed (top : key -> bool) (rows : list nest_row) : Prop := forall k o v, In (k, (o, v)) rows -> o = None <-> top k = true.
Definition nest_inv (rows : list nest_row) (d : dict) : Prop :=
  map fst d = map fst (dict_of key_eqb rows) /\ forall k v, In (k, v) d -> settled (pick k rows) v.
Lemma keys_dset {V W} (d : list (key * V)) (e : list (key * W)) k v w : map fst d = map fst e -> map fst (dset key_eqb d k v) = map fst (dset key_eqb e k w).
Proof.
  intros H. rewrite !dset_keys, H. unfold dmem.
  assert (E : (if dget key_eqb d k then true else false) = (if dget key_eqb e k then true else false)); [|now rewrite E].
  destruct (dget key_eqb d k) as [x|] eqn:E1, (dget key_eqb e k) as [y|] eqn:E2; try reflexivity; exfalso.
  - apply (dget_none key_eqb key_eqb_spec) in E2. apply E2. rewrite <- H. apply (dget_in key_eqb key_eqb_spec) in E1. now apply (in_map fst) in E1.
  - apply (dget_none key_eqb key_eqb_spec) in E1. apply E1. rewrite H. apply (dget_in key_eqb key_eqb_spec) in E2. now apply (in_map fst) in E2.
Qed.
Lemma settled_last xs o v w : settled (xs ++ [(Some o, v)]) w -> exists es e, xs ++ [(Some o, v)] = map (fun kv => (Some (fst kv), snd kv)) es /\ merged es e /\ w = VDict false e.
Proof.
  intros H. inversion H as [es e Hn He E|ys y E]; subst.
  - exists es, e. auto.
  - apply app_inj_tail in E as [_ E]. discriminate.
Qed.
Lemma dict_of_in {V} (rows : list (key * V)) k : In k (map fst (dict_of key_eqb rows)) -> In k (map fst rows).
Proof.
  unfold dict_of, dupdate. assert (G : forall (d : list (key * V)), In k (map fst (fold_left (fun d0 kv => dset key_eqb d0 (fst kv) (snd kv)) rows d)) -> In k (map fst d) \/ In k (map fst rows)).
  { induction rows as [|[k' v] rows IH]; intros d; cbn [fold_left fst snd map]; [auto|]. intros H. apply IH in H as [H|H]; [|right; now right].
    apply (dset_in_keys key_eqb key_eqb_spec) in H as [H| ->]; [now left|right; now left]. }
  intros H. destruct (G [] H) as [[]|H']. exact H'.
Qed.
Lemma nest_one top rows d r : unmixed top (rows ++ [r]) -> nest_inv rows d -> exists d', nest_step d r = Ok d' /\ nest_inv (rows ++ [r]) d'.
Proof.
  intros Hu [Hk Hd]. assert (Hnd : NoDup (map fst d)) by (rewrite Hk; apply dict_of_keys_nodup, key_eqb_spec).
  assert (Keep : forall k x v, k <> fst x -> In (k, v) d -> settled (pick k (rows ++ [x])) v).
  { intros k [k' a] v Hne Hin. rewrite pick_snoc. cbn in Hne. replace (key_eqb k' k) with false; [|symmetry; destruct (key_eqb k' k) eqn:E; [apply TextParsersFacts.key_eqb_eq in E; congruence|reflexivity]].
    rewrite app_nil_r. now apply Hd. }
  destruct r as [k [[o|] v]]; cbn [nest_step].
  - unfold set_orbital. destruct (dget key_eqb d k) as [w|] eqn:E.
    + apply (dget_in key_eqb key_eqb_spec) in E. pose proof (Hd _ _ E) as S. inversion S as [es e Hn He Ep Ew|xs x Ep Ew].
      * subst w. eexists. split; [reflexivity|]. split.
        { rewrite (dict_of_snoc key_eqb). now apply keys_dset. }
        intros k' v' Hin. apply FileParts.dset_in in Hin; [|exact Hnd]. destruct Hin as [[-> ->]|[Hne Hin]]; [|now apply Keep].
        rewrite pick_snoc, TextParsersFacts.key_eqb_refl', <- Ep.
        replace (map (fun kv : key * pyval => (Some (fst kv), snd kv)) es ++ [(Some o, v)]) with (map (fun kv : key * pyval => (Some (fst kv), snd kv)) (es ++ [(o, v)])) by (now rewrite map_app).
        constructor; [now destruct es|]. now apply dset_merged.
      * exfalso. assert (I : In (None, w) (pick k rows)) by (rewrite <- Ep; subst x; apply in_or_app; right; now left).
        apply pick_in in I. assert (T : top k = true) by (apply (Hu k None w); [apply in_or_app; now left|reflexivity]).
        assert (C : Some o = None); [|discriminate]. apply (Hu k (Some o) v); [apply in_or_app; right; now left|exact T].
    + eexists. split; [reflexivity|]. split.
      { rewrite (dict_of_snoc key_eqb). now apply keys_dset. }
      intros k' v' Hin. apply FileParts.dset_in in Hin; [|exact Hnd]. destruct Hin as [[-> ->]|[Hne Hin]]; [|now apply Keep].
      rewrite pick_snoc, TextParsersFacts.key_eqb_refl'. apply (dget_none key_eqb key_eqb_spec) in E. rewrite pick_none.
      * apply (st_dict [(o, v)] [(o, v)]); [discriminate|]. apply (mg_new [] [] o v); [constructor|intros []].
      * intros C. apply E. rewrite Hk. now apply dict_of_has; [apply key_eqb_spec|].
  - eexists. split; [reflexivity|]. split.
    { rewrite (dict_of_snoc key_eqb). now apply keys_dset. }
    intros k' v' Hin. apply FileParts.dset_in in Hin; [|exact Hnd]. destruct Hin as [[-> ->]|[Hne Hin]]; [|now apply Keep].
    rewrite pick_snoc, TextParsersFacts.key_eqb_refl'. constructor.
Qed.
Lemma nest_all top rows : unmixed top rows -> exists d, foldM nest_step rows [] = Ok d /\ nested rows d.
Proof.
  assert (G : unmixed top rows -> exists d, foldM nest_step rows [] = Ok d /\ nest_inv rows d).
  { induction rows as [|r rows IH] using rev_ind; intros H.
    - exists []. split; [reflexivity|]. split; [reflexivity|]. intros k v [].
    - destruct IH as (d & E & I). { intros k o v Hin. apply (H k o v). apply in_or_app. now left. }
      destruct (nest_one top rows d r H I) as (d' & E' & I'). exists d'. split; [|exact I']. rewrite PyFacts.foldM_app, E. cbn [bind foldM]. now rewrite E'. }
  intros H. destruct (G H) as (d & E & Hk & Hs). exists d. split; [exact E|]. exists (dict_of key_eqb rows). split; [apply merged_dict_of, key_eqb_spec|].
  split; [now symmetry|]. intros k v Hin. exists (pick k rows). split; [apply pick_picks|auto].
Qed.

(** ** Displacements *)
Lemma fp_ws_counted l k ns t p s c : columns ns t -> length ns = S k -> token_end s ->
  exists t', columns ns t' /\ fp (RSeq ws_star (labelled_float lf_sep REps (l, Some (S k, S k)))) p t s c ((l, t') :: c).
Proof.
  intros Ht Hl Hs. destruct ns as [|n ns]; [discriminate|].
  inversion Ht as [|g n0 ns0 t' Hg Hg0 Hn0 Ht']; subst. pose proof (proj1 (blanks_iff _) Hg) as Hb.
  destruct g as [|x w _] using rev_ind; [congruence|]. rewrite <- app_assoc. cbn [app].
  rewrite forallb_app in Hb. cbn in Hb. apply andb_true_iff in Hb as [Hw Hx]. rewrite andb_true_r in Hx.
  assert (Hd : hd_not is_space ((write_num n ++ t') ++ s)) by (rewrite <- app_assoc; now apply num_hd).
  assert (Hc : columns (n :: ns) ([x] ++ write_num n ++ t')) by (apply Forall_app in Hg; constructor; auto; [tauto|discriminate]).
  exists ([x] ++ write_num n ++ t'). split; [exact Hc|].
  unfold ws_star. apply CellFacts.fp_star_back1; [exact Hw|exact Hx|exact Hd| |].
  - apply nomatch_den. intros p' s' c' D. apply den_counted in D as (ns' & t'' & Hc' & Hl' & E & _).
    destruct ns' as [|n' ns']; [discriminate|]. inversion Hc' as [|g' ? ? ? Hg' Hg0' _ _]; subst.
    destruct g' as [|y g']; [congruence|]. rewrite E in Hd. cbn in Hd. apply blanks_iff in Hg'. cbn in Hg'. apply andb_true_iff in Hg' as [Hg' _]. congruence.
  - apply (fp_counted l (S k) (n :: ns)); auto.
Qed.
Lemma disp_match l r : disp_row l r -> exists o v, r = (fst r, (Some o, v)) /\ forall d, disp_line d l = Ok (set_inner d (fst r) o v).
Proof.
  intros [g n g1 u at_ t ns s Hg Hn Hg1 Hu Ht Hl Hf Hs]. exists (SpecDict.atom_key at_), (vector ns). split; [reflexivity|].
  apply gap_iff in Hg1 as [Hg1 Hg10]. destruct Hg as [Hg Hg0].
  set (c0 := [("temperature"%string, write_num n)]).
  destruct (fp_atom (pa (pa None (g ++ write_num n)) g1) u at_ (t ++ s) c0 (edge_gap _ _ Hg1 Hg10) Hu) as (ds & F & Hd & Ed).
  { eapply columns_gap; [exact Ht|exact space_not_digit|now apply token_end_digit]. }
  destruct (fp_ws_counted "displacement" 5 ns t (pa (pa (pa None (g ++ write_num n)) g1) u) s
     (("index"%string, write_digits ds) :: ("spec"%string, fst at_) :: c0) Ht Hl Hs) as (t' & Ht' & F2).
  destruct (match_hit ATOMIC_DISP_RE (concat [g ++ write_num n; g1; u; t]) s
     (("displacement"%string, t') :: ("index"%string, write_digits ds) :: ("spec"%string, fst at_) :: c0)) as (x & Ex & Ec).
  { unfold ATOMIC_DISP_RE. cbn [RSeqs]. replace (concat [g ++ write_num n; g1; u; t]) with ((g ++ write_num n) ++ g1 ++ u ++ t) by (tidy; reflexivity).
    eapply fp_seq; [apply (fp_labelled ["temperature"]%string [n]); [|reflexivity|]|].
    - replace (g ++ write_num n) with (g ++ write_num n ++ []) by now rewrite app_nil_r. constructor; auto. constructor.
    - tidy. now apply gap_token.
    - eapply fp_seq; [apply fp_star_chr; [exact Hg1|tidy; eapply atom_hd; [exact Hu|exact upper_not_space]]|].
      eapply fp_seq; [exact F|]. exact F2. }
  intros d. unfold disp_line. replace (g ++ write_num n ++ g1 ++ u ++ t ++ s) with (concat [g ++ write_num n; g1; u; t] ++ s) by (tidy; reflexivity).
  rewrite Ex, (atom_entry x at_ ds); try (rewrite Ec; reflexivity); auto. cbn [bind].
  assert (G1 : group_s x "displacement" = t') by (unfold group_s; rewrite Ec; reflexivity).
  assert (G2 : group_s x "temperature" = write_num n) by (unfold group_s; rewrite Ec; reflexivity).
  rewrite G1, G2, (FileParts.columns_split _ _ Ht'), tuple_fit; [reflexivity|apply Forall_wf, (CellFacts.columns_ok _ _ Ht)|exact Hf].
Qed.
Lemma inner_get d k : dget key_eqb (inner_dicts d) k = option_map (VDict false) (dget key_eqb d k).
Proof. induction d as [|[k' e] d IH]; [reflexivity|]. cbn [inner_dicts map dget fst snd]. destruct (key_eqb k' k); [reflexivity|exact IH]. Qed.
Lemma inner_set d k e : dset key_eqb (inner_dicts d) k (VDict false e) = inner_dicts (dset key_eqb d k e).
Proof. induction d as [|[k' e'] d IH]; [reflexivity|]. cbn [inner_dicts map dset fst snd]. destruct (key_eqb k' k); [reflexivity|]. cbn [map]. f_equal. exact IH. Qed.
Lemma inner_step d k o v : nest_step (inner_dicts d) (k, (Some o, v)) = Ok (inner_dicts (set_inner d k o v)).
Proof.
  cbn [nest_step]. unfold set_orbital, set_inner. rewrite inner_get. destruct (dget key_eqb d k) as [e|]; cbn [option_map]; rewrite inner_set; reflexivity.
Qed.
Lemma disp_none l : no_row 6 l -> re_match ATOMIC_DISP_RE l = None.
Proof.
  intros [H|H]; [apply plain_match; auto; vm_compute; reflexivity|].
  apply nomatch_match_at, nomatch_den. intros p' s' c' (p1 & s1 & c1 & D1 & p2 & s2 & c2 & D2 & p3 & s3 & c3 & D3 & p4 & s4 & c4 & D4 & D5). apply H.
  apply den_split in D1 as (w1 & ->), D2 as (w2 & ->), D3 as (w3 & ->), D4 as (w4 & ->).
  apply (den_counted "displacement" 6) in D5 as (ns & t & Ht & Hl & -> & _). exists (w1 ++ w2 ++ w3 ++ w4), t, s', ns. rewrite <- !app_assoc. auto.
Qed.
Lemma disp_fold ls rows : laid disp_row (no_row 6) ls rows -> forall d, rmap inner_dicts (foldM disp_line ls d) = foldM nest_step rows (inner_dicts d).
Proof.
  induction 1 as [|l a ls rs H _ IH|l ls rs H _ IH]; intros d; [reflexivity| |]; cbn [foldM].
  - destruct (disp_match l a H) as (o & v & E & E'). rewrite E' at 1. cbn [bind]. rewrite IH. destruct a as [k w]. cbn [fst] in E |- *. injection E as ->.
    now rewrite inner_step.
  - replace (disp_line d l) with (Ok d); [apply IH|]. unfold disp_line. now rewrite disp_none.
Qed.
Lemma atom_disp_spec ls rows : laid disp_row (no_row 6) ls rows -> exists d, process_atom_disp ls = Ok d /\ nested rows d.
Proof.
  intros H. unfold process_atom_disp. rewrite (disp_fold _ _ H). apply (nest_all (fun _ => false)).
  intros k o v Hin. assert (G : exists l, disp_row l (k, (o, v))).
  { clear -H Hin. induction H; [destruct Hin| |auto]. destruct Hin as [->|Hin]; eauto. }
  destruct G as (l & G). inversion G; subst. split; discriminate.
Qed.
Lemma atom_disp_text ls rows d k v : laid disp_row (no_row 6) ls rows -> process_atom_disp ls = Ok d -> In (k, v) d -> exists n, k = KStr (write_num n).
Proof.
  intros H E Hin. destruct (atom_disp_spec ls rows H) as (d' & E' & (out & Hm & Hk & _)). rewrite E in E'. injection E' as <-.
  apply (in_map fst) in Hin. rewrite <- Hk, (merged_fun key_eqb key_eqb_spec _ _ Hm) in Hin. apply dict_of_in in Hin. apply in_map_iff in Hin as ([k' [o w]] & Ek & Hin). cbn in Ek. subst k'.
  assert (G : exists l, disp_row l (k, (o, w))).
  { clear -H Hin. induction H; [destruct Hin| |auto]. destruct Hin as [->|Hin]; eauto. }
  destruct G as (l & G). inversion G; subst. eauto.
Qed.

(** ** Orbital populations *)
Lemma orbital_fp o p s c : orbital_name o -> hd_not (fun x => existsb (Ascii.eqb x) ($"xyz")) s ->
  fp (RGrp "orb" (RSeq (c_of "SPDF") (ROpt (c_of "xyz")))) p o s c (("orb"%string, o) :: c).
Proof.
  intros (a & Ha & Ho) Hs. apply fp_grp. destruct Ho as [->|(b & Hb & ->)].
  - change [a] with ([a] ++ []). eapply fp_seq; [apply fp_chr|apply fp_opt_none].
    + cbn in Ha. decompose [or] Ha; subst; try reflexivity; tauto.
    + apply nomatch_first; [reflexivity|]. destruct s as [|x s]; [exact I|]. exact Hs.
  - change [a; b] with ([a] ++ [b]). eapply fp_seq; [apply fp_chr|apply fp_opt_some; [discriminate|apply fp_chr]].
    + cbn in Ha. decompose [or] Ha; subst; try reflexivity; tauto.
    + cbn in Hb. decompose [or] Hb; subst; try reflexivity; tauto.
Qed.
Lemma orbital_match a u at_ g o g2 n s : blanks a -> numbered_atom u at_ -> gap g -> orbital_name o -> gap g2 -> num_ok n -> fits (num_value n) -> token_end s ->
  forall d, orbital_line d (a ++ u ++ g ++ o ++ g2 ++ write_num n ++ s) = set_orbital d (SpecDict.atom_key at_) (KStr o) (float_of n).
Proof.
  intros Ha Hu Hg Ho [Hb2 Hg20] Hn Hf Hs d. apply gap_iff in Hg as [Hg Hg0]. apply blanks_iff in Ha. pose proof (proj1 (blanks_iff _) Hb2) as Hg2.
  destruct (fp_atom (pa None a) u at_ (g ++ o ++ g2 ++ write_num n ++ s) []) as (ds & F & Hd & Ed); [|exact Hu| |].
  { apply edge_blanks; [|exact Ha]. intros c E. discriminate. }
  { apply hd_gap; auto using space_not_digit. }
  destruct (match_hit ORBITAL_POPN_RE (concat [a; u; g; o] ++ g2 ++ write_num n) s
      (("charge"%string, write_num n) :: ("orb"%string, o) :: atom_caps at_ ds)) as (x & Ex & Ec).
  { unfold ORBITAL_POPN_RE. apply (fp_seqs_app [ws_star; ATOM_RE; ws_star; RGrp "orb" (RSeq (c_of "SPDF") (ROpt (c_of "xyz")))] [ws_star; labelled_floats ["charge"]%string] None _ _ _ _ (("orb"%string, o) :: atom_caps at_ ds)); [discriminate..| |].
    - apply fp_seqs.
      eapply fpl_cons; [apply fp_star_chr; [exact Ha|tidy; eapply atom_hd; [exact Hu|exact upper_not_space]]|].
      eapply fpl_cons; [tidy; exact F|].
      eapply fpl_cons; [apply fp_star_chr; [exact Hg|]|].
      { destruct Ho as (c & Hc & [->|(e & _ & ->)]); cbn in Hc; decompose [or] Hc; subst; tidy; try reflexivity; tauto. }
      eapply fpl_cons; [apply orbital_fp; [exact Ho|]|constructor].
      tidy. apply hd_gap; auto. clear. intros c. revert c. ascii_dec.
    - cbn [RSeqs]. apply (fp_ws_labelled ["charge"]%string [n]); [|reflexivity|discriminate|exact Hs].
      replace (g2 ++ write_num n) with (g2 ++ write_num n ++ []) by now rewrite app_nil_r. constructor; auto. constructor. }
  unfold orbital_line. replace (a ++ u ++ g ++ o ++ g2 ++ write_num n ++ s) with ((concat [a; u; g; o] ++ g2 ++ write_num n) ++ s) by (tidy; reflexivity).
  rewrite Ex, (atom_entry x at_ ds); try (rewrite Ec; reflexivity); auto. cbn [bind].
  assert (G1 : group_s x "orb" = o) by (unfold group_s; rewrite Ec; reflexivity).
  assert (G2 : group x "charge" = VStr (write_num n)) by (unfold group; rewrite Ec; reflexivity).
  rewrite G1, G2, type_float; [reflexivity|now apply num_ok_wf|exact Hf].
Qed.
Lemma blanks_align : forall a w x y, forallb is_space a = true -> forallb is_space w = true -> hd_not is_space x -> hd_not is_space y -> a ++ x = w ++ y -> a = w /\ x = y.
Proof.
  induction a as [|c a IH]; intros [|d w] x y Ha Hw Hx Hy E; cbn in *; auto.
  - subst x. cbn in Hx. apply andb_true_iff in Hw as [Hd _]. congruence.
  - subst y. cbn in Hy. apply andb_true_iff in Ha as [Hd _]. congruence.
  - injection E as -> E. apply andb_true_iff in Ha as [_ Ha], Hw as [_ Hw]. destruct (IH w x y Ha Hw Hx Hy E) as [-> ->]. auto.
Qed.
Lemma den_name p s c p' s' c' : den ATOM_RE p s c p' s' c' -> exists x w r, s = x :: w ++ r /\ is_upper x = true /\ forallb is_lower w = true /\ length w <= 2 /\
  ((exists r', r = ":"%char :: r') \/ word_boundary (pa (Some x) w) r = true).
Proof.
  intros D. unfold ATOM_RE, ATOM_NAME_RE, SPECIES_RE in D. cbn [RSeqs] in D.
  destruct D as (p1 & s1 & c1 & (c2 & (p2 & s2 & c3 & D2 & p3 & s3 & c4 & (p4 & s4 & c5 & D4 & D5) & p5 & s5 & c6 & D6 & p6 & s6 & c7 & D7 & _) & _) & _).
  destruct D2 as (_ & -> & -> & ->). destruct D4 as (x & -> & Hx & -> & ->). apply den_rep_chr in D5 as (w & -> & _ & Hl & Hw & -> & ->).
  exists x, w, s3. split; [reflexivity|]. split; [exact Hx|]. split; [exact Hw|]. split; [cbn in Hl; lia|].
  destruct D6 as (n & _ & Hn & D6). destruct n as [|[|n]]; [| |cbn in Hn; lia].
  - cbn in D6. destruct D6 as (-> & -> & ->). right. destruct D7 as (D7 & _). exact D7.
  - cbn [iter_den] in D6. destruct D6 as (? & ? & ? & (? & ? & ? & D6 & _) & _). apply den_char in D6 as (-> & _). left. eauto.
Qed.
Lemma total_no_orbital a r : forallb is_space a = true -> re_match ORBITAL_POPN_RE (a ++ $"Total:" ++ r) = None.
Proof.
  intros Ha. unfold re_match. apply nomatch_match_at. apply nomatch_den. intros p' s' c' D. unfold ORBITAL_POPN_RE in D. cbn [RSeqs] in D.
  destruct D as (p1 & s1 & c1 & D1 & p2 & s2 & c2 & D2 & _). apply den_rep_chr in D1 as (w & E & _ & _ & Hw & -> & <-).
  apply den_name in D2 as (x & v & q & -> & Hx & Hv & Hl & Hq).
  apply blanks_align in E as [-> E]; [|exact Ha|exact Hw|reflexivity|now apply upper_not_space].
  injection E as <- E. destruct v as [|y [|z [|? ?]]]; cbn [app] in E; [| | |cbn in Hl; lia].
  - destruct Hq as [(q' & ->)|Hq]; [discriminate E|]. subst q. discriminate Hq.
  - injection E as <- E. destruct Hq as [(q' & ->)|Hq]; [discriminate E|]. subst q. discriminate Hq.
  - injection E as <- <- E. destruct Hq as [(q' & ->)|Hq]; [discriminate E|]. subst q. discriminate Hq.
Qed.
Lemma total_match a g n s : blanks a -> gap g -> num_ok n -> fits (num_value n) -> token_end s ->
  forall d, orbital_line d (a ++ text_of "Total:" ++ g ++ write_num n ++ s) = Ok (dset key_eqb d (kstr "total") (float_of n)).
Proof.
  intros Ha [Hg Hg0] Hn Hf Hs d. apply blanks_iff in Ha.
  destruct (match_hit TOTAL_CHARGE_RE (concat [a; $"Total:"] ++ g ++ write_num n) s [("charge"%string, write_num n)]) as (x & Ex & Ec).
  { unfold TOTAL_CHARGE_RE. apply (fp_seqs_app [ws_star; RLit "Total:"] [ws_star; labelled_floats ["charge"]%string] None _ _ _ _ []); [discriminate..| |].
    - apply fp_seqs. eapply fpl_cons; [apply fp_star_chr; [exact Ha|reflexivity]|]. eapply fpl_cons; [apply fp_lit|constructor].
    - cbn [RSeqs]. apply (fp_ws_labelled ["charge"]%string [n]); [|reflexivity|discriminate|exact Hs].
      replace (g ++ write_num n) with (g ++ write_num n ++ []) by now rewrite app_nil_r. constructor; auto. constructor. }
  unfold orbital_line. change (text_of "Total:") with ($"Total:"). rewrite (total_no_orbital a (g ++ write_num n ++ s) Ha).
  replace (a ++ $"Total:" ++ g ++ write_num n ++ s) with ((concat [a; $"Total:"] ++ g ++ write_num n) ++ s) by (tidy; reflexivity).
  rewrite Ex, (group_float x n); [reflexivity|rewrite Ec; reflexivity|now apply num_ok_wf|exact Hf].
Qed.
Lemma the_no_orbital a r : forallb is_space a = true -> re_match ORBITAL_POPN_RE (a ++ $"The total projected" ++ r) = None.
Proof.
  intros Ha. unfold re_match. apply nomatch_match_at, nomatch_den. intros p' s' c' D. unfold ORBITAL_POPN_RE, ATOM_RE, ATOM_NAME_RE, SPECIES_RE in D. cbn [RSeqs] in D.
  destruct D as (p1 & s1 & c1 & D1 & p2 & s2 & c2 & D2 & _). apply den_rep_chr in D1 as (w & E & _ & _ & Hw & -> & <-).
  destruct D2 as (p3 & s3 & c3 & (c4 & (q2 & z2 & b3 & D2 & q3 & z3 & b4 & (q4 & z4 & b5 & D4 & D5) & q5 & z5 & b6 & D6 & q6 & z6 & b7 & D7 & D8) & _) & p4 & s4 & c5 & D9 & (c6 & D10 & _)).
  destruct D2 as (_ & <- & <- & <-). destruct D4 as (x & -> & Hx & -> & <-). apply den_rep_chr in D5 as (v & -> & _ & Hl & Hv & -> & <-).
  apply blanks_align in E as [-> E]; [|exact Ha|exact Hw|reflexivity|now apply upper_not_space].
  injection E as <- E. destruct D7 as (D7 & <- & <- & <-).
  assert (Hc : forall k p s c p' s' c', iter_den (den (RSeq (RChar ":") (RPlus c_word))) k p s c p' s' c' -> k = 0 \/ exists u, s = ":"%char :: u).
  { intros [|k] ? ? ? ? ? ? D; [now left|]. cbn [iter_den] in D. destruct D as (? & ? & ? & (? & ? & ? & D & _) & _). apply den_char in D as (-> & _). right. eauto. }
  destruct D6 as (k & _ & _ & D6). destruct (Hc _ _ _ _ _ _ _ D6) as [->|(u & Eu)].
  2:{ subst z3. destruct v as [|y [|z [|? ?]]]; cbn [app] in E; [discriminate E|injection E as <- E; discriminate E|injection E as <- <- E; discriminate E|cbn in Hl; lia]. }
  cbn in D6. destruct D6 as (<- & <- & <-).
  destruct v as [|y [|z [|? ?]]]; cbn [app] in E; [subst z3; discriminate D7|injection E as <- E; subst z3; discriminate D7| |cbn in Hl; lia].
  injection E as <- <- E. assert (Ez : z3 = $" total projected" ++ r) by (now symmetry). clear E. subst z3.
  assert (Es : s3 = $" total projected" ++ r).
  { destruct D8 as (k & _ & _ & D8). destruct k as [|k]; [cbn in D8; now destruct D8 as (_ & <- & _)|]. exfalso. cbn [iter_den] in D8.
    destruct D8 as (? & ? & ? & (? & ? & ? & D8 & ? & ? & ? & D11 & _) & _). apply den_ws in D8 as (w1 & E1 & Hw1). apply den_char in D11 as (-> & _).
    change ($" total projected" ++ r) with ([" "%char] ++ $"total projected" ++ r) in E1.
    apply blanks_align in E1 as [_ E1]; [discriminate E1|reflexivity|exact Hw1|reflexivity|reflexivity]. }
  subst s3. apply den_rep_chr in D9 as (w1 & E1 & _ & _ & Hw1 & _). apply den_rep_chr in D10 as (w2 & -> & Hl2 & _ & Hw2 & _).
  destruct w2 as [|y w2]; [cbn in Hl2; lia|]. cbn in Hw2. apply andb_true_iff in Hw2 as [Hy _].
  change ($" total projected" ++ r) with ([" "%char] ++ $"total projected" ++ r) in E1.
  apply blanks_align in E1 as [_ E1]; [|reflexivity|exact Hw1|reflexivity|cbn; clear -Hy; revert y Hy; ascii_dec].
  injection E1 as <- _. discriminate Hy.
Qed.
Lemma projected_match a r ns : blanks a -> number_line ns (a ++ text_of "The total projected" ++ r) -> all_fit ns ->
  forall d, orbital_line d (a ++ text_of "The total projected" ++ r) = Ok (dset key_eqb d (kstr "total_projected") (vector ns)).
Proof.
  intros Ha Hn Hf d. apply blanks_iff in Ha. unfold orbital_line. change (text_of "The total projected") with ($"The total projected") in *. rewrite (the_no_orbital a r Ha).
  replace (re_match TOTAL_CHARGE_RE _) with (@None mres).
  2:{ symmetry. apply nomatch_match_at, nomatch_den. intros p' s' c' (p1 & s1 & c1 & D1 & p2 & s2 & c2 & D2 & _). apply den_ws in D1 as (w & E & Hw).
      apply den_lit in D2 as (-> & _). apply blanks_align in E as [_ E]; [discriminate E|exact Ha|exact Hw|reflexivity|reflexivity]. }
  replace (contains _ _) with true.
  2:{ symmetry. apply mention_contains. exists (a ++ $"The "), r. rewrite <- app_assoc. reflexivity. }
  unfold numbers_as. rewrite (get_numbers_line _ _ Hn), tuple_fit; [reflexivity|now apply Forall_wf, number_line_ok with (l := a ++ $"The total projected" ++ r)|exact Hf].
Qed.
Lemma orbital_other l d : not_orbital l -> orbital_line d l = Ok d.
Proof.
  intros [H Hm]. unfold orbital_line. rewrite !plain_match by (auto; vm_compute; reflexivity).
  replace (contains ($"total projected") l) with false; [reflexivity|]. symmetry. apply not_true_is_false. intros C. apply Hm. now apply mention_contains.
Qed.
Lemma orbitals_spec ls rows : laid orbital_row not_orbital ls rows -> exists d, process_orbital_populations ls = Ok d /\ nested rows d.
Proof.
  intros H. assert (E : forall d, foldM orbital_line ls d = foldM nest_step rows d).
  { induction H as [|l a ls rs H _ IH|l ls rs H _ IH]; intros d; [reflexivity| |]; cbn [foldM].
    - replace (orbital_line d l) with (nest_step d a); [destruct (nest_step d a); [apply IH|reflexivity]|].
      destruct H; symmetry; [now apply orbital_match|now apply total_match|now apply projected_match].
    - rewrite orbital_other by exact H. apply IH. }
  unfold process_orbital_populations. rewrite E. apply (nest_all (fun k => match k with KStr _ => true | _ => false end)).
  intros k o v Hin. assert (G : exists l, orbital_row l (k, (o, v))).
  { clear -H Hin. induction H; [destruct Hin| |auto]. destruct Hin as [->|Hin]; eauto. }
  destruct G as (l & G). inversion G; subst; split; try discriminate; reflexivity.
Qed.

(** ** Mulliken populations *)
Definition popn_names : list string := ["s"; "p"; "d"; "f"; "total"; "charge"]%string.
Definition spin_caps (sp : option num) (c : caps) : caps := match sp with Some n => ("spin"%string, write_num n) :: c | None => c end.
Lemma spin_fp sp t s p c : columns (opt_list sp) t -> blanks s -> fp (ROpt (labelled_floats ["spin"]%string)) p t s c (spin_caps sp c).
Proof.
  intros Ht Hs. destruct sp as [n|].
  - assert (T : t <> []) by (inversion Ht as [|g ? ? ? _ Hg0 _ _]; destruct g; [congruence|discriminate]).
    apply fp_opt_some; [exact T|]. apply (fp_labelled ["spin"]%string [n]); auto.
    now apply CellBlockFacts.blanks_end.
  - inversion Ht; subst. apply fp_opt_none, nomatch_den. intros p' s' c' D. apply den_labelled in D as (ns & t & Hc & Hl & -> & _).
    destruct ns as [|n ns]; [discriminate|]. inversion Hc as [|g ? ? t' _ _ Hn Ht']; subst. apply Forall_app in Hs as [Hs _]. apply Forall_app in Hs as [_ Hs].
    apply Forall_app in Hs as [Hs _]. pose proof (num_hd n [] Hn) as N. pose proof (write_num_nonempty n Hn) as N0.
    destruct (write_num n) as [|y w]; [congruence|]. inversion Hs; subst. cbn in N. apply blank_iff in H1. congruence.
Qed.
Lemma up_no p s c : hd_not (Ascii.eqb "u") s -> nomatch (RGrp "spin_sep" (RLit "up:")) p s c.
Proof.
  intros H. apply nomatch_den. intros p' s' c' (c1 & D & _). apply den_lit in D as (-> & _). cbn in H. discriminate.
Qed.
Lemma num_no_u n s : num_ok n -> hd_not (Ascii.eqb "u") (write_num n ++ s).
Proof.
  intros H. pose proof (CellFacts.write_num_numchars n) as C. pose proof (write_num_nonempty n H) as N.
  destruct (write_num n) as [|y q]; [congruence|]. cbn in C |- *. apply andb_true_iff in C as [C _]. clear -C. revert y C. ascii_dec.
Qed.
Definition popn_tail : re := RSeqs [labelled_floats popn_names; ROpt (labelled_floats ["spin"]%string)].
Lemma popn_tail_fp ns sp t p s c : columns (ns ++ opt_list sp) t -> length ns = 6 -> blanks s ->
  fp popn_tail p t s c (spin_caps sp (row_caps popn_names ns c)).
Proof.
  intros Ht Hl Hs. apply FileParts.columns_app_inv in Ht as (t1 & t2 & -> & H1 & H2). unfold popn_tail. cbn [RSeqs].
  eapply fp_seq; [|apply spin_fp; [exact H2|exact Hs]]. apply fp_labelled; [exact H1|now rewrite Hl|].
  destruct sp as [n|].
  - inversion H2 as [|g ? ? ? Hg Hg0 _ _]; subst. rewrite <- app_assoc. apply gap_token; [now apply blanks_iff|exact Hg0].
  - inversion H2; subst. now apply CellBlockFacts.blanks_end.
Qed.
Lemma popn_plain_fp ns sp t p s c : columns (ns ++ opt_list sp) t -> length ns = 6 -> blanks s ->
  fp (RSeqs [ws_star; ROpt (RGrp "spin_sep" (RLit "up:")); labelled_floats popn_names; ROpt (labelled_floats ["spin"]%string)]) p t s c
    (spin_caps sp (row_caps popn_names ns c)).
Proof.
  intros Ht Hl Hs. destruct ns as [|n ns]; [discriminate|]. inversion Ht as [|g n0 ns0 t' Hg Hg0 Hn0 Ht']; subst. pose proof (proj1 (blanks_iff _) Hg) as Hb.
  destruct g as [|x w _] using rev_ind; [congruence|]. rewrite <- app_assoc. cbn [app].
  rewrite forallb_app in Hb. cbn in Hb. apply andb_true_iff in Hb as [Hw Hx]. rewrite andb_true_r in Hx.
  assert (Hd : hd_not is_space ((write_num n ++ t') ++ s)) by (rewrite <- app_assoc; now apply num_hd).
  assert (Hc : columns ((n :: ns) ++ opt_list sp) ([x] ++ write_num n ++ t')) by (apply Forall_app in Hg; constructor; auto; [tauto|discriminate]).
  cbn [RSeqs]. unfold ws_star. apply CellFacts.fp_star_back1; [exact Hw|exact Hx|exact Hd| |].
  - apply nomatch_den. intros p' s' c' (p1 & s1 & c1 & D & p2 & s2 & c2 & D2 & _). apply den_labelled in D2 as (ns' & t'' & Hc' & Hl' & E & _).
    destruct D as (k & _ & Hk & D). destruct k as [|[|k]]; [| |cbn in Hk; lia].
    + cbn in D. destruct D as (_ & <- & _). destruct ns' as [|n' ns']; [discriminate|]. inversion Hc' as [|g' ? ? ? Hg' Hg0' _ _]; subst.
      destruct g' as [|y g']; [congruence|]. rewrite E in Hd. cbn in Hd. apply blanks_iff in Hg'. cbn in Hg'. apply andb_true_iff in Hg' as [Hg' _]. congruence.
    + cbn [iter_den] in D. destruct D as (? & ? & ? & (? & D & _) & _). apply den_lit in D as (D & _).
      pose proof (num_no_u n (t' ++ s) Hn0) as U. rewrite app_assoc, D in U. discriminate.
  - change (x :: write_num n ++ t') with ([] ++ [x] ++ write_num n ++ t'). eapply fp_seq.
    + apply fp_opt_none, up_no. cbn. revert Hx. clear. revert x. ascii_dec.
    + apply (popn_tail_fp (n :: ns)); auto.
Qed.
Definition popn_head : list re := [ws_star; ATOM_RE].
Lemma popn_plain_match a u at_ t ns sp s : blanks a -> numbered_atom u at_ -> columns (ns ++ opt_list sp) t -> length ns = 6 -> blanks s ->
  exists x ds, re_match POPN_RE (a ++ u ++ t ++ s) = Some x /\ ds <> [] /\ decimal ds = snd at_ /\ m_caps x = spin_caps sp (row_caps popn_names ns (atom_caps at_ ds)).
Proof.
  intros Ha Hu Ht Hl Hs. apply blanks_iff in Ha.
  destruct (fp_atom (pa None a) u at_ (t ++ s) []) as (ds & F & Hd & Ed); [|exact Hu| |].
  { apply edge_blanks; [|exact Ha]. intros c E. discriminate. }
  { eapply columns_gap; [exact Ht|exact space_not_digit|]. apply token_end_digit. now apply CellBlockFacts.blanks_end. }
  destruct (match_hit POPN_RE (concat [a; u] ++ t) s (spin_caps sp (row_caps popn_names ns (atom_caps at_ ds)))) as (x & Ex & Ec).
  { unfold POPN_RE. apply (fp_seqs_app popn_head _ None _ _ _ _ (atom_caps at_ ds)); [discriminate..| |].
    - apply fp_seqs. eapply fpl_cons; [apply fp_star_chr; [exact Ha|tidy; eapply atom_hd; [exact Hu|exact upper_not_space]]|].
      eapply fpl_cons; [tidy; exact F|constructor].
    - apply popn_plain_fp; auto. }
  exists x, ds. split; [revert Ex; tidy; auto|]. auto.
Qed.
Lemma popn_up_match a u at_ g t ns sp s : blanks a -> numbered_atom u at_ -> gap g -> columns (ns ++ opt_list sp) t -> length ns = 6 -> blanks s ->
  exists x ds, re_match POPN_RE (a ++ u ++ g ++ $"up:" ++ t ++ s) = Some x /\ ds <> [] /\ decimal ds = snd at_ /\
    m_caps x = spin_caps sp (row_caps popn_names ns (("spin_sep"%string, $"up:") :: atom_caps at_ ds)).
Proof.
  intros Ha Hu Hg Ht Hl Hs. apply blanks_iff in Ha. apply gap_iff in Hg as [Hg Hg0].
  destruct (fp_atom (pa None a) u at_ (g ++ $"up:" ++ t ++ s) []) as (ds & F & Hd & Ed); [|exact Hu| |].
  { apply edge_blanks; [|exact Ha]. intros c E. discriminate. }
  { apply hd_gap; auto using space_not_digit. }
  destruct (match_hit POPN_RE (concat [a; u; g; $"up:"] ++ t) s (spin_caps sp (row_caps popn_names ns (("spin_sep"%string, $"up:") :: atom_caps at_ ds)))) as (x & Ex & Ec).
  { unfold POPN_RE. apply (fp_seqs_app [ws_star; ATOM_RE; ws_star; ROpt (RGrp "spin_sep" (RLit "up:"))] [labelled_floats popn_names; ROpt (labelled_floats ["spin"]%string)] None _ _ _ _ (("spin_sep"%string, $"up:") :: atom_caps at_ ds)); [discriminate..| |].
    - apply fp_seqs. eapply fpl_cons; [apply fp_star_chr; [exact Ha|tidy; eapply atom_hd; [exact Hu|exact upper_not_space]]|].
      eapply fpl_cons; [tidy; exact F|].
      eapply fpl_cons; [apply fp_star_chr; [exact Hg|reflexivity]|].
      eapply fpl_cons; [apply fp_opt_some; [discriminate|apply fp_grp, fp_lit]|constructor].
    - apply popn_tail_fp; auto. }
  exists x, ds. split; [revert Ex; tidy; auto|]. auto.
Qed.
Lemma popn_dn_match a ds g t ns s : gap a -> ds <> [] -> blanks g -> columns ns t -> length ns = 5 -> token_end s ->
  exists x, re_match POPN_RE_DN (a ++ write_digits ds ++ g ++ $"dn:" ++ t ++ s) = Some x /\ m_caps x = row_caps shells ns [].
Proof.
  intros Ha Hd Hg Ht Hl Hs. apply gap_iff in Ha as [Ha Ha0]. apply blanks_iff in Hg.
  destruct (match_hit POPN_RE_DN (concat [a; write_digits ds; g; $"dn:"; t]) s (row_caps shells ns [])) as (x & Ex & Ec).
  { unfold POPN_RE_DN. apply fp_seqs. eapply fpl_cons; [apply fp_plus_chr; [exact Ha|exact Ha0|tidy]|].
    { destruct ds as [|d ds]; [congruence|]. cbn. now destruct d. }
    eapply fpl_cons; [apply fp_plus_chr; [apply write_digits_digits|destruct ds; [congruence|discriminate]|]|].
    { tidy. apply hd_blanks; [exact space_not_digit|exact Hg|reflexivity]. }
    eapply fpl_cons; [apply fp_star_chr; [exact Hg|reflexivity]|].
    eapply fpl_cons; [apply fp_lit|].
    eapply fpl_cons; [apply fp_labelled; [exact Ht|now rewrite Hl|tidy; exact Hs]|constructor]. }
  exists x. split; [revert Ex; tidy; auto|exact Ec].
Qed.
Lemma none_float : to_type TFloat VNone = Ok VNone.
Proof. reflexivity. Qed.
Lemma float_float q : to_type TFloat (VFloat q) = Ok (VFloat q).
Proof. reflexivity. Qed.
Definition spin_str (sp : option num) : pyval := match sp with Some n => VStr (write_num n) | None => VNone end.
Definition spin_val (sp : option num) : pyval := match sp with Some n => float_of n | None => VNone end.
Lemma spin_type sp : Forall num_wf (opt_list sp) -> all_fit (opt_list sp) -> to_type TFloat (spin_str sp) = Ok (spin_val sp).
Proof. intros W F. destruct sp as [n|]; [|reflexivity]. inversion W; inversion F; subst. now apply type_float. Qed.
Lemma five {A} (l : list A) : length l = 5 -> exists a b c d e, l = [a; b; c; d; e].
Proof. destruct l as [|a [|b [|c [|d [|e [|? ?]]]]]]; try discriminate. intros _. exists a, b, c, d, e. reflexivity. Qed.
Lemma popn_dict x ns charge sp at_ ds sep : length ns = 5 ->
  m_caps x = spin_caps sp (row_caps popn_names (ns ++ [charge]) (sep ++ atom_caps at_ ds)) -> (sep = [] \/ sep = [("spin_sep"%string, $"up:")]) ->
  row_dict POPN_RE x = (kstr "spin_sep", match sep with [] => VNone | _ => VStr ($"up:") end) :: combine (map kstr popn_names) (map (fun n => VStr (write_num n)) (ns ++ [charge])) ++ [(kstr "spin", spin_str sp)].
Proof.
  intros Hl Ec Hs. destruct (five ns Hl) as (n1 & n2 & n3 & n4 & n5 & ->). unfold row_dict, groupdict.
  change (group_names POPN_RE) with ["spec"; "index"; "spin_sep"; "s"; "p"; "d"; "f"; "total"; "charge"; "spin"]%string. rewrite Ec.
  destruct Hs as [-> | ->], sp; reflexivity.
Qed.
Lemma popn_none l : no_row 6 l -> re_match POPN_RE l = None.
Proof.
  intros [H|H]; [apply plain_match; auto; vm_compute; reflexivity|].
  apply nomatch_match_at, nomatch_den. intros p' s' c' (p1 & s1 & c1 & D1 & p2 & s2 & c2 & D2 & p3 & s3 & c3 & D3 & p4 & s4 & c4 & D4 & p5 & s5 & c5 & D5 & _). apply H.
  apply den_split in D1 as (w1 & ->), D2 as (w2 & ->), D3 as (w3 & ->), D4 as (w4 & ->).
  apply (den_labelled popn_names) in D5 as (ns & t & Ht & Hl & -> & _). exists (w1 ++ w2 ++ w3 ++ w4), t, s5, ns. rewrite <- !app_assoc. auto.
Qed.
Lemma popn_spec ls es : in_turn popn_item ls es -> exists d, process_mulliken ls = Ok d /\ merged es d.
Proof.
  apply turn_merged. intros b fs [a u at_ t ns charge sp s Ha Hu Ht Hl Hf Hs|a u at_ g t up charge sp s a' dd g' t' dn s' tu td Ha Hu Hg Ht Hf Hl Hnu Hs Ha' Hdd Hg' Ht' Hf' Hl' Hnd Hs'|l Hl].
  - eexists _, []. split; [reflexivity|]. intros st more. unfold mulliken_step. cbn [app].
    replace (ns ++ charge :: opt_list sp) with ((ns ++ [charge]) ++ opt_list sp) in Ht, Hf by (now rewrite <- app_assoc).
    destruct (popn_plain_match a u at_ t (ns ++ [charge]) sp s Ha Hu Ht) as (x & ds & -> & Hd & Ed & Ec); [rewrite app_length, Hl; reflexivity|exact Hs|].
    pose proof (Forall_wf _ (CellFacts.columns_ok _ _ Ht)) as W. apply Forall_app in W as [W Ws]. apply Forall_app in Hf as [Hf Hfs].
    rewrite (popn_dict x ns charge sp at_ ds [] Hl Ec (or_introl eq_refl)).
    assert (G : cap (m_caps x) "spin_sep" = None).
    { destruct (five ns Hl) as (n1 & n2 & n3 & n4 & n5 & ->). rewrite Ec. destruct sp; reflexivity. }
    rewrite G. cbn [bind].
    rewrite (atom_entry x at_ ds); auto; try (destruct (five ns Hl) as (n1 & n2 & n3 & n4 & n5 & ->); rewrite Ec; destruct sp; reflexivity). cbn [bind].
    destruct (five ns Hl) as (n1 & n2 & n3 & n4 & n5 & ->). cbn [app] in W, Hf.
    repeat match goal with H : Forall num_wf (_ :: _) |- _ => inversion H; clear H; subst | H : all_fit (_ :: _) |- _ => inversion H; clear H; subst | H : Forall (fun n => fits _) (_ :: _) |- _ => inversion H; clear H; subst end.
    unfold mulliken_types, as_floats. cbn [map app SHELLS append].
    pose proof (spin_type sp Ws Hfs) as Ts.
    repeat (erewrite fix_step; [|reflexivity|first [exact Ts|apply type_float; assumption]]).
    repeat (rewrite fix_skip by reflexivity). reflexivity.
  - eexists _, [_]. split; [reflexivity|]. intros st more. unfold mulliken_step. cbn [app].
    replace (up ++ charge :: opt_list sp) with ((up ++ [charge]) ++ opt_list sp) in Ht, Hf by (now rewrite <- app_assoc).
    change (text_of "up:") with ($"up:"). change (text_of "dn:") with ($"dn:").
    destruct (popn_up_match a u at_ g t (up ++ [charge]) sp s Ha Hu Hg Ht) as (x & ds & -> & Hd & Ed & Ec); [rewrite app_length, Hl; reflexivity|exact Hs|].
    destruct (popn_dn_match a' dd g' t' dn s' Ha' Hdd Hg' Ht' Hl' Hs') as (y & Ey & Ecy).
    pose proof (Forall_wf _ (CellFacts.columns_ok _ _ Ht)) as W. apply Forall_app in W as [W Ws]. apply Forall_app in Hf as [Hf Hfs].
    pose proof (Forall_wf _ (CellFacts.columns_ok _ _ Ht')) as W'.
    rewrite (popn_dict x up charge sp at_ ds [("spin_sep"%string, $"up:")] Hl Ec (or_intror eq_refl)).
    assert (G : cap (m_caps x) "spin_sep" = Some ($"up:")).
    { destruct (five up Hl) as (n1 & n2 & n3 & n4 & n5 & ->). rewrite Ec. destruct sp; reflexivity. }
    rewrite G.
    rewrite (atom_entry x at_ ds); auto; try (destruct (five up Hl) as (n1 & n2 & n3 & n4 & n5 & ->); rewrite Ec; destruct sp; reflexivity).
    destruct (five up Hl) as (n1 & n2 & n3 & n4 & n5 & ->). destruct (five dn Hl') as (m1 & m2 & m3 & m4 & m5 & ->). cbn [app] in W, Hf.
    injection Hnu as <-. injection Hnd as <-.
    repeat match goal with H : Forall num_wf (_ :: _) |- _ => inversion H; clear H; subst | H : all_fit (_ :: _) |- _ => inversion H; clear H; subst | H : Forall (fun n => fits _) (_ :: _) |- _ => inversion H; clear H; subst end.
    pose proof (spin_type sp Ws Hfs) as Ts.
    set (D := foldM (alias_inplace key_eqb true) (spin_aliases "up_") _).
    assert (ED : D = Ok [(kstr "spin_sep", VBool true); (kstr "charge", VStr (write_num charge)); (kstr "spin", spin_str sp);
      (kstr "up_s", VStr (write_num n1)); (kstr "up_p", VStr (write_num n2)); (kstr "up_d", VStr (write_num n3)); (kstr "up_f", VStr (write_num n4)); (kstr "up_total", VStr (write_num n5))]) by reflexivity.
    rewrite ED. cbn [bind next_line app]. rewrite Ey.
    set (D2 := foldM (alias_inplace key_eqb true) (spin_aliases "dn_") _).
    assert (ED2 : D2 = Ok [(kstr "dn_s", VStr (write_num m1)); (kstr "dn_p", VStr (write_num m2)); (kstr "dn_d", VStr (write_num m3)); (kstr "dn_f", VStr (write_num m4)); (kstr "dn_total", VStr (write_num m5))]).
    { unfold D2, groupdict. change (group_names POPN_RE_DN) with ["s"; "p"; "d"; "f"; "total"]%string. rewrite Ecy. reflexivity. }
    rewrite ED2. cbn [bind].
    set (D3 := update _ _).
    assert (ED3 : D3 = [(kstr "spin_sep", VBool true); (kstr "charge", VStr (write_num charge)); (kstr "spin", spin_str sp);
      (kstr "up_s", VStr (write_num n1)); (kstr "up_p", VStr (write_num n2)); (kstr "up_d", VStr (write_num n3)); (kstr "up_f", VStr (write_num n4)); (kstr "up_total", VStr (write_num n5));
      (kstr "dn_s", VStr (write_num m1)); (kstr "dn_p", VStr (write_num m2)); (kstr "dn_d", VStr (write_num m3)); (kstr "dn_f", VStr (write_num m4)); (kstr "dn_total", VStr (write_num m5))]) by reflexivity.
    rewrite ED3. unfold text_at, dgetE. 
    change (dget key_eqb _ (kstr "up_total")) with (Some (VStr (write_num n5))). cbn [bind]. rewrite builtin_num by assumption. cbn [bind].
    change (dget key_eqb _ (kstr "dn_total")) with (Some (VStr (write_num m5))). cbn [bind]. rewrite builtin_num by assumption. cbn [bind].
    set (tot := VFloat (fadd _ _)). set (D4 := dset key_eqb _ (kstr "total") tot).
    assert (Tt : to_type TFloat tot = Ok tot) by reflexivity.
    assert (ED4 : D4 = [(kstr "spin_sep", VBool true); (kstr "charge", VStr (write_num charge)); (kstr "spin", spin_str sp);
      (kstr "up_s", VStr (write_num n1)); (kstr "up_p", VStr (write_num n2)); (kstr "up_d", VStr (write_num n3)); (kstr "up_f", VStr (write_num n4)); (kstr "up_total", VStr (write_num n5));
      (kstr "dn_s", VStr (write_num m1)); (kstr "dn_p", VStr (write_num m2)); (kstr "dn_d", VStr (write_num m3)); (kstr "dn_f", VStr (write_num m4)); (kstr "dn_total", VStr (write_num m5)); (kstr "total", tot)]) by reflexivity.
    rewrite ED4. unfold mulliken_types, as_floats. cbn [map app SHELLS append].
    do 4 (rewrite fix_skip by reflexivity).
    repeat (erewrite fix_step; [|reflexivity|first [exact Ts|exact Tt|apply type_float; assumption]]).
    assert (Et : tot = exact (num_value n5 + num_value m5)%Q).
    { unfold tot, exact, fadd, float_op. do 2 f_equal. apply Qred_complete. now rewrite !Qred_correct. }
    rewrite <- Et. reflexivity.
  - eexists l, []. split; [reflexivity|]. intros st more. unfold mulliken_step. now rewrite popn_none.
Qed.

(** ** Magnetic resonance *)
Lemma span_blanks (r : str) : exists w r', r = w ++ r' /\ forallb is_space w = true /\ hd_not is_space r'.
Proof.
  induction r as [|c r IH]; [exists [], []; repeat split|]. destruct (is_space c) eqn:E.
  - destruct IH as (w & r' & -> & Hw & Hr). exists (c :: w), r'. cbn. rewrite E. auto.
  - exists [], (c :: r). repeat split. exact E.
Qed.
Lemma fp_bar p g g2 s c : forallb is_space g = true -> forallb is_space g2 = true -> hd_not is_space s -> fp bar p (g ++ "|"%char :: g2) s c c.
Proof.
  intros Hg Hg2 Hs. unfold bar. replace (g ++ "|"%char :: g2) with (concat [g; ["|"%char]; g2]) by (tidy; reflexivity). apply fp_seqs.
  eapply fpl_cons; [apply fp_star_chr; [exact Hg|reflexivity]|]. eapply fpl_cons; [apply fp_char|].
  eapply fpl_cons; [apply fp_star_chr; [exact Hg2|tidy; exact Hs]|constructor].
Qed.
Definition magres_head (task : nat) : list re :=
  match task with 3 => [ws_star; RChar "|"; RStar (RChar "*"); ws_star; ATOM_RE] | _ => [bar; ATOM_RE] end.
Definition magres_mid (task : nat) : list re :=
  match task with
  | 0 => [labelled_floats ["cs_iso"; "cs_aniso"]%string; ws_star; ASYM_RE; bar]
  | 1 => [labelled_floats ["cs_iso"; "cs_aniso"]%string; ws_star; ASYM_RE; labelled_floats ["cq"; "eta"]%string; bar]
  | 2 => [labelled_floats ["cq"]%string; ws_star; ASYM_RE; bar]
  | 3 => [labelled_floats ["fermi_contact"; "spin_dipolar"; "paramagnetic"; "diamagnetic"; "total"]%string; bar]
  | _ => [labelled_floats ["hf_iso"]%string; bar]
  end.
Lemma magres_shape task : MAGRES_RE task = RSeqs (magres_head task ++ magres_mid task).
Proof. now destruct task as [|[|[|[|task]]]]. Qed.
Lemma stars_all st : (forall c, In c st -> c = "*"%char) -> forallb (Ascii.eqb "*") st = true.
Proof. intros H. apply forallb_forall. intros c Hc. now rewrite (H c Hc). Qed.
Lemma magres_head_fp task a st g u at_ s : blanks a -> (task <> 3 -> st = []) -> (forall c, In c st -> c = "*"%char) -> blanks g -> numbered_atom u at_ -> hd_not is_digit s ->
  exists ds, fp (RSeqs (magres_head task)) None (a ++ "|"%char :: st ++ g ++ u) s [] (atom_caps at_ ds) /\ ds <> [] /\ decimal ds = snd at_.
Proof.
  intros Ha Hst Hst' Hg Hu Hs. apply blanks_iff in Ha, Hg.
  destruct (fp_atom (pa None (a ++ "|"%char :: st ++ g)) u at_ s [] ) as (ds & F & Hd & Ed); [|exact Hu|exact Hs|].
  { replace (a ++ "|"%char :: st ++ g) with ((a ++ ["|"%char]) ++ st ++ g) by (tidy; reflexivity). rewrite 2 pa_app. apply edge_blanks; [|exact Hg].
    destruct st as [|c st _] using rev_ind; [rewrite pa_app; now apply edge_char|]. rewrite pa_app, (Hst' c); [now apply edge_char|]. apply in_or_app. right. now left. }
  exists ds. split; [|auto].
  assert (G : task <> 3 -> fp (RSeqs [bar; ATOM_RE]) None (a ++ "|"%char :: st ++ g ++ u) s [] (atom_caps at_ ds)).
  { intros H. rewrite (Hst H) in *. cbn [app] in *. replace (a ++ "|"%char :: g ++ u) with (concat [a ++ "|"%char :: g; u]) by (tidy; reflexivity). apply fp_seqs.
    eapply fpl_cons; [apply fp_bar; [exact Ha|exact Hg|tidy; eapply atom_hd; [exact Hu|exact upper_not_space]]|]. eapply fpl_cons; [exact F|constructor]. }
  destruct task as [|[|[|[|task]]]]; try (apply G; discriminate). cbn [magres_head].
  replace (a ++ "|"%char :: st ++ g ++ u) with (concat [a; ["|"%char]; st; g; u]) by (tidy; reflexivity). apply fp_seqs.
  eapply fpl_cons; [apply fp_star_chr; [exact Ha|reflexivity]|]. eapply fpl_cons; [apply fp_char|].
  eapply fpl_cons; [apply fp_star_chr; [now apply stars_all|]|].
  { tidy. apply hd_blanks; [clear; ascii_dec|exact Hg|]. eapply atom_hd; [exact Hu|clear; ascii_dec]. }
  eapply fpl_cons; [apply fp_star_chr; [exact Hg|tidy; eapply atom_hd; [exact Hu|exact upper_not_space]]|].
  eapply fpl_cons; [|constructor]. revert F. rewrite <- !pa_app. tidy. auto.
Qed.
Definition asym_str (x : option asym) (w : str) : Prop :=
  match x with Some (Asym n) => w = write_num n /\ fixed n /\ fits (num_value n) | Some NoAsym => w = $"N/A" | None => False end.
Lemma asym_fp x w p s c : asym_text x w -> hd_not is_digit s -> fp ASYM_RE p w s c (("asym"%string, w) :: c).
Proof.
  intros H Hs. apply fp_grp. destruct H as [n Hn Hf|]; [apply fp_alt_l; now apply fixed_fp|].
  apply fp_alt_r; [|apply fp_lit]. apply nomatch_den. intros p' s' c' D. apply den_FNUMBER in D as (sg & a & b & D & E & _).
  destruct sg; try discriminate E. destruct a as [|[] a]; discriminate E.
Qed.
Lemma asym_hd x w s : asym_text x w -> hd_not is_space (w ++ s).
Proof. intros [n Hn Hf|]; [apply num_hd, fixed_ok, Hn|reflexivity]. Qed.
Definition asym_caps (x : option asym) (w : str) (c : caps) : caps := match x with Some _ => ("asym"%string, w) :: c | None => c end.
Definition asym_word (x : option asym) : str := match x with Some (Asym n) => write_num n | Some NoAsym => $"N/A" | None => [] end.
Lemma asym_word_of x w : asym_text x w -> w = asym_word (Some x).
Proof. now intros []. Qed.
Lemma magres_mid_fp task t1 ns1 w ax t2 ns2 g2 g3 r p c :
  let '(b, f, e) := magres_cols task in
  columns ns1 t1 -> length ns1 = length b -> asym_field f ax w -> columns ns2 t2 -> length ns2 = length e -> gap g2 ->
  forallb is_space g3 = true -> hd_not is_space r ->
  fp (RSeqs (magres_mid task)) p (t1 ++ w ++ t2 ++ g2 ++ "|"%char :: g3) r c (row_caps e ns2 (asym_caps ax (asym_word ax) (row_caps b ns1 c))).
Proof.
  destruct task as [|[|[|[|task]]]]; cbn [magres_cols magres_mid]; intros H1 L1 Hw H2 L2 Hg2 Hg3 Hr; apply gap_iff in Hg2 as [Hg2 Hg20]; inversion Hw as [|g x w' Hg Hx]; subst; clear Hw;
    try (destruct ns2 as [|? ns2]; [|discriminate L2]; inversion H2; subst); try (apply gap_iff in Hg as [Hg Hg0]; pose proof (asym_word_of _ _ Hx); subst w').
  - replace (t1 ++ (g ++ asym_word (Some x)) ++ [] ++ g2 ++ "|"%char :: g3) with (concat [t1; g; asym_word (Some x); g2 ++ "|"%char :: g3]) by (tidy; reflexivity). apply fp_seqs.
    eapply fpl_cons; [apply fp_labelled; [exact H1|now rewrite L1|tidy; now apply gap_token]|].
    eapply fpl_cons; [apply fp_star_chr; [exact Hg|tidy; eapply asym_hd; exact Hx]|].
    eapply fpl_cons; [eapply asym_fp; [exact Hx|tidy; apply hd_gap; auto using space_not_digit]|].
    eapply fpl_cons; [now apply fp_bar|constructor].
  - replace (t1 ++ (g ++ asym_word (Some x)) ++ t2 ++ g2 ++ "|"%char :: g3) with (concat [t1; g; asym_word (Some x); t2; g2 ++ "|"%char :: g3]) by (tidy; reflexivity). apply fp_seqs.
    eapply fpl_cons; [apply fp_labelled; [exact H1|now rewrite L1|tidy; now apply gap_token]|].
    eapply fpl_cons; [apply fp_star_chr; [exact Hg|tidy; eapply asym_hd; exact Hx]|].
    eapply fpl_cons; [eapply asym_fp; [exact Hx|tidy; eapply columns_gap; [exact H2|exact space_not_digit|apply hd_gap; auto using space_not_digit]]|].
    eapply fpl_cons; [apply fp_labelled; [exact H2|now rewrite L2|tidy; now apply gap_token]|].
    eapply fpl_cons; [now apply fp_bar|constructor].
  - replace (t1 ++ (g ++ asym_word (Some x)) ++ [] ++ g2 ++ "|"%char :: g3) with (concat [t1; g; asym_word (Some x); g2 ++ "|"%char :: g3]) by (tidy; reflexivity). apply fp_seqs.
    eapply fpl_cons; [apply fp_labelled; [exact H1|now rewrite L1|tidy; now apply gap_token]|].
    eapply fpl_cons; [apply fp_star_chr; [exact Hg|tidy; eapply asym_hd; exact Hx]|].
    eapply fpl_cons; [eapply asym_fp; [exact Hx|tidy; apply hd_gap; auto using space_not_digit]|].
    eapply fpl_cons; [now apply fp_bar|constructor].
  - replace (t1 ++ [] ++ [] ++ g2 ++ "|"%char :: g3) with (concat [t1; g2 ++ "|"%char :: g3]) by (tidy; reflexivity). apply fp_seqs.
    eapply fpl_cons; [apply fp_labelled; [exact H1|now rewrite L1|tidy; now apply gap_token]|].
    eapply fpl_cons; [now apply fp_bar|constructor].
  - replace (t1 ++ [] ++ [] ++ g2 ++ "|"%char :: g3) with (concat [t1; g2 ++ "|"%char :: g3]) by (tidy; reflexivity). apply fp_seqs.
    eapply fpl_cons; [apply fp_labelled; [exact H1|now rewrite L1|tidy; now apply gap_token]|].
    eapply fpl_cons; [now apply fp_bar|constructor].
Qed.
Lemma magres_match task l x : SpecCastep3.magres_row task l x -> exists m ds, re_match (MAGRES_RE task) l = Some m /\ ds <> [] /\ decimal ds = snd (mr_atom x) /\
  m_caps m = (let '(b, f, e) := magres_cols task in row_caps e (mr_after x) (asym_caps (mr_asym x) (asym_word (mr_asym x)) (row_caps b (mr_before x) (atom_caps (mr_atom x) ds)))).
Proof.
  intros [a st g u t1 w t2 g2 r x0 Ha Hst Hst' Hg Hu H1 L1 F1 Hw H2 L2 F2 Hg2].
  destruct (span_blanks r) as (g3 & r' & -> & Hg3 & Hr).
  destruct (magres_head_fp task a st g u (mr_atom x0) ((t1 ++ w ++ t2 ++ g2 ++ "|"%char :: g3) ++ r') Ha Hst Hst' Hg Hu) as (ds & F & Hd & Ed).
  { rewrite <- app_assoc. eapply columns_gap; [exact H1|exact space_not_digit|]. inversion Hw as [|g' y w' Hg' Hy]; subst.
    - cbn [app]. rewrite <- !app_assoc. eapply columns_gap; [exact H2|exact space_not_digit|]. apply gap_iff in Hg2 as [? ?]. apply hd_gap; auto using space_not_digit.
    - apply gap_iff in Hg' as [? ?]. rewrite <- !app_assoc. apply hd_gap; auto using space_not_digit. }
  pose proof (magres_mid_fp task t1 (mr_before x0) w (mr_asym x0) t2 (mr_after x0) g2 g3 r' (pa None (a ++ "|"%char :: st ++ g ++ u)) (atom_caps (mr_atom x0) ds)) as M.
  destruct (magres_cols task) as [[b f] e]. cbn [fst snd] in *.
  specialize (M H1 L1 Hw H2 L2 Hg2 Hg3 Hr).
  destruct (match_hit (MAGRES_RE task) ((a ++ "|"%char :: st ++ g ++ u) ++ t1 ++ w ++ t2 ++ g2 ++ "|"%char :: g3) r' _
     ltac:(rewrite magres_shape; eapply fp_seqs_app; [destruct task as [|[|[|[|task]]]]; discriminate|destruct task as [|[|[|[|task]]]]; discriminate|exact F|exact M])) as (m & Em & Ec).
  exists m, ds. split; [|auto]. rewrite <- Em. f_equal. tidy. reflexivity.
Qed.
Lemma not_na n : num_ok n -> str_eqb (write_num n) ($"N/A") = false.
Proof.
  intros H. pose proof (CellFacts.write_num_numchars n) as C. destruct (str_eqb (write_num n) ($"N/A")) eqn:E; [|reflexivity].
  apply str_eqb_eq in E. rewrite E in C. discriminate C.
Qed.
Lemma map_floats x (names : list string) ns : Forall2 (fun k n => float_group x k = Ok (float_of n)) names ns ->
  mapM (fun k => rmap (pair (kstr k)) (float_group x k)) names = Ok (named_floats names ns).
Proof. induction 1 as [|k n ks ns H _ IH]; [reflexivity|]. cbn [mapM]. rewrite H, IH. reflexivity. Qed.
Lemma magres_value task l x m ds : SpecCastep3.magres_row task l x -> ds <> [] -> decimal ds = snd (mr_atom x) ->
  m_caps m = (let '(b, f, e) := magres_cols task in row_caps e (mr_after x) (asym_caps (mr_asym x) (asym_word (mr_asym x)) (row_caps b (mr_before x) (atom_caps (mr_atom x) ds)))) ->
  CastepRows.magres_row (MAGRES_RE task) m = Ok (magres_entry task x).
Proof.
  intros [a st g u t1 w t2 g2 r x0 _ _ _ _ _ H1 L1 F1 Hw H2 L2 F2 _] Hd Ed Ec.
  pose proof (Forall_wf _ (CellFacts.columns_ok _ _ H1)) as W1. pose proof (Forall_wf _ (CellFacts.columns_ok _ _ H2)) as W2. clear H1 H2.
  destruct x0 as [at_ b ax e]. cbn [mr_atom mr_before mr_asym mr_after] in *.
  unfold CastepRows.magres_row, magres_entry. cbn [mr_atom mr_before mr_asym mr_after].
  destruct task as [|[|[|[|task]]]]; cbn [magres_cols fst snd] in *;
    repeat match goal with H : length ?v = length (_ :: _) |- _ => destruct v as [|? ?]; [discriminate H|]; cbn [length] in H; injection H as H
                         | H : length ?v = length [] |- _ => destruct v as [|? ?]; [|discriminate H]; clear H
                         | H : length ?v = 0 |- _ => destruct v as [|? ?]; [|discriminate H]; clear H
                         | H : length ?v = S _ |- _ => destruct v as [|? ?]; [discriminate H|]; cbn [length] in H; injection H as H end;
    repeat match goal with H : Forall num_wf (_ :: _) |- _ => inversion H; clear H; subst | H : all_fit (_ :: _) |- _ => inversion H; clear H; subst | H : Forall (fun n => fits _) (_ :: _) |- _ => inversion H; clear H; subst end;
    inversion Hw as [|g' y w' Hg' Hy]; subst; clear Hw;
    (rewrite (atom_entry m at_ ds); [|rewrite Ec; reflexivity|rewrite Ec; reflexivity|exact Hd|exact Ed]); cbn [bind];
    match goal with |- context [mapM _ ?k] => let k' := eval vm_compute in k in change k with k' end;
    (erewrite map_floats; [|repeat (apply Forall2_cons; [apply group_float; [rewrite Ec; reflexivity|assumption|assumption]|]); apply Forall2_nil]);
    match goal with |- context [existsb _ ?k] => let k' := eval vm_compute in (existsb (String.eqb "asym") k) in change (existsb (String.eqb "asym") k) with k' end;
    cbv iota; cbn [bind]; try reflexivity;
    (assert (Ga : group_s m "asym" = asym_word (Some y)) by (unfold group_s; rewrite Ec; reflexivity));
    rewrite Ga; destruct Hy as [nq Hn Hf|]; cbn [asym_word];
    first [rewrite (not_na nq) by (now apply fixed_ok); (rewrite (group_float m nq); [|rewrite Ec; reflexivity|apply num_ok_wf, fixed_ok, Hn|exact Hf]); reflexivity
          |reflexivity].
Qed.
Lemma magres_needs task p s c p' s' c' : den (MAGRES_RE task) p s c p' s' c' -> has_columns (length (fst (fst (magres_cols task)))) s.
Proof.
  assert (G : forall a names rest, den (RSeq a (RSeq ATOM_RE (RSeq (labelled_floats names) rest))) p s c p' s' c' -> has_columns (length names) s).
  { intros a names rest (p1 & s1 & c1 & D1 & p2 & s2 & c2 & D2 & p3 & s3 & c3 & D3 & D4). apply den_split in D1 as (w1 & ->), D2 as (w2 & ->), D4 as (w4 & E4).
    apply den_labelled in D3 as (ns & t & Ht & Hl & -> & _). exists (w1 ++ w2), t, s3, ns. rewrite <- app_assoc. auto. }
  destruct task as [|[|[|[|task]]]]; cbn [magres_cols fst MAGRES_RE RSeqs]; try apply G.
  intros (p1 & s1 & c1 & D1 & p2 & s2 & c2 & D2 & p3 & s3 & c3 & D3 & p4 & s4 & c4 & D4 & p5 & s5 & c5 & D5 & p6 & s6 & c6 & D6 & D7).
  apply den_split in D1 as (w1 & ->), D2 as (w2 & ->), D3 as (w3 & ->), D4 as (w4 & ->), D5 as (w5 & ->).
  apply den_labelled in D6 as (ns & t & Ht & Hl & -> & _). exists (w1 ++ w2 ++ w3 ++ w4 ++ w5), t, s6, ns. rewrite <- !app_assoc. auto.
Qed.
Lemma magres_none task l : not_magres task l -> re_match (MAGRES_RE task) l = None.
Proof.
  intros [H|H].
  - revert H. destruct task as [|[|[|[|task]]]]; apply (lacking_match (Ascii.eqb "|")); try (vm_compute; reflexivity); exact among_bar.
  - apply nomatch_match_at, nomatch_den. intros p' s' c' D. apply H. eapply magres_needs. exact D.
Qed.
Lemma magres_spec task ls rows : laid (SpecCastep3.magres_row task) (not_magres task) ls rows ->
  exists d, parse_magres_block task ls = Ok ((name "task", VStr (text_of (magres_name task))) :: d) /\ merged (map (magres_entry task) rows) d.
Proof.
  intros H. destruct (dict_rows_laid (SpecCastep3.magres_row task) (not_magres task) (re_match (MAGRES_RE task)) (CastepRows.magres_row (MAGRES_RE task)) (magres_entry task) ls rows) as (d & E & M); auto.
  - intros l x Hr. destruct (magres_match task l x Hr) as (m & ds & Em & Hd & Ed & Ec). exists m. split; [exact Em|]. eapply magres_value; eassumption.
  - apply magres_none.
  - exists d. split; [|exact M]. unfold parse_magres_block. rewrite E. destruct task as [|[|[|[|task]]]]; reflexivity.
Qed.
