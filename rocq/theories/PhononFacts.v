(** Facts about the phonon table of .castep files. *)
From Coq Require Import QArith Qreduction.
From Verif Require Import PyBase PyFacts PyVal Regex RegexFacts RegexComplete CastepRes NumSpec NumFacts NumProps NumVal
  StrUtil SpecStr StrUtilFacts SpecLine SpecType TypeConv TypeConvFacts IntStr DictUtil SpecDict DictFacts Stream StreamFacts
  SpecTable ColumnFacts Header HeaderFacts SpecMd MdFacts SpecBands NeedFacts SpecCastep CastepBlocks CastepFacts LangFacts.
From Verif Require CellFacts CellPosFacts CellBlockFacts BandsFacts TextParsersFacts.
Local Open Scope list_scope.
Local Open Scope nat_scope.

(** ** Phonons *)
Lemma gap_iff g : gap g <-> forallb is_space g = true /\ g <> [].
Proof. unfold gap. now rewrite blanks_iff. Qed.
Lemma fixed_fp n p s c : fixed n -> hd_not is_digit s -> fp FNUMBER_RE p (write_num n) s c c.
Proof.
  intros (Hn & He & Hf) Hs. rewrite write_num_split, He. cbn [exp_txt]. rewrite app_nil_r. destruct Hn as (Hn & _).
  unfold frac_digits in Hn. unfold mant. destruct (n_frac n) as [b|]; [|congruence]. now apply fp_FNUMBER.
Qed.
Lemma fixed_hd n s : fixed n -> hd_not (fun c => negb (CellFacts.is_numchar c)) (write_num n ++ s).
Proof.
  intros (Hn & _). pose proof (CellFacts.write_num_numchars n) as C. pose proof (write_num_nonempty n Hn) as N.
  destruct (write_num n) as [|y q]; [congruence|]. cbn in C |- *. apply andb_true_iff in C as [C _]. now apply negb_false_iff.
Qed.
Lemma columns_fps_gen ns t : columns ns t -> forall s, (forall n, follow_ok n s) ->
  exists ts, concat ts = t /\ length ts = length ns /\ Forall (fun t => t <> []) ts /\ forall p c, fps col_re p ts s c c.
Proof.
  induction 1 as [|g n ns t Hg Hg0 Hn Ht IH]; intros s Hs.
  - exists []. repeat split; auto. intros. constructor.
  - destruct (IH s Hs) as (ts & E & El & Ene & F). exists ((g ++ write_num n) :: ts). cbn [concat length].
    rewrite E, El, app_assoc. split; [reflexivity|]. split; [reflexivity|]. split.
    { constructor; auto. destruct g; [congruence|discriminate]. }
    intros p c. apply blanks_iff in Hg. econstructor; [|apply F]. apply fp_col; auto. rewrite E.
    destruct Ht as [|g' n' ns t Hg' Hg0' Hn' Ht]; [apply Hs|]. apply token_end_follow.
    destruct g' as [|x g']; [congruence|]. intros y u E'. cbn in E'. injection E' as <- _. now inversion Hg'.
Qed.
Lemma fp_counted_gen l k ns t p s c : columns ns t -> length ns = k -> (forall n, follow_ok n s) ->
  fp (labelled_float lf_sep REps (l, Some (k, k))) p t s c ((l, t) :: c).
Proof.
  intros H Hl Hs. destruct (columns_fps_gen ns t H s Hs) as (ts & <- & El & Ene & F).
  cbn [labelled_float snd fst]. apply fp_grp. apply (fp_times col_re k p ts s c c); [congruence|apply F].
Qed.
Lemma qpt_match l q : qpt_line l q -> exists x, re_match PHONON_RE l = Some x /\ split (group_s x "qpt") = map write_num q.
Proof.
  intros [a g1 g2 ds g3 t g4 w g5 r q' Ha Hg1 Hg2 Hds Hg3 Ht Hl Hf Hg4 Hw Hg5].
  apply gap_iff in Ha as [Ha Ha0], Hg1 as [Hg1 Hg10], Hg3 as [Hg3 Hg30], Hg4 as [Hg4 Hg40], Hg5 as [Hg5 Hg50]. apply blanks_iff in Hg2.
  assert (Sp : forall f g u, forallb is_space g = true -> g <> [] -> (forall c, is_space c = true -> f c = false) -> hd_not f (g ++ u)).
  { intros f [|x g] u Hx H0 H; [congruence|]. cbn in Hx |- *. apply andb_true_iff in Hx as [Hx _]. auto. }
  assert (F : fp PHONON_RE None (concat [a; ["+"%char]; g1; $"q-pt="; g2; write_digits ds; g3; ["("%char]; t; [")"%char]; g4; write_num w; g5; ["+"%char]])
                r [] [("w"%string, write_num w); ("qpt"%string, t)]).
  { unfold PHONON_RE. apply fp_seqs.
    eapply fpl_cons; [apply fp_plus_chr; [exact Ha|exact Ha0|reflexivity]|]. eapply fpl_cons; [apply fp_char|].
    eapply fpl_cons; [apply fp_plus_chr; [exact Hg1|exact Hg10|reflexivity]|]. eapply fpl_cons; [apply fp_lit|].
    eapply fpl_cons; [apply fp_star_chr; [exact Hg2|cbn [concat]; rewrite <- app_assoc; apply write_digits_hd; auto using digit_not_space]|].
    eapply fpl_cons; [apply (fp_INT NoSign); [exact Hds| |]|].
    { cbn [concat]. rewrite <- app_assoc. apply Sp; auto. ascii_dec. }
    { intros _. rewrite pa_rev. destruct (rev g2) as [|x u] eqn:E.
      - cbn. discriminate.
      - intros Z. injection Z as ->. assert (In "."%char g2) by (apply in_rev; rewrite E; now left). rewrite forallb_forall in Hg2.
        specialize (Hg2 _ H). discriminate. }
    eapply fpl_cons; [apply fp_plus_chr; [exact Hg3|exact Hg30|reflexivity]|]. eapply fpl_cons; [apply fp_char|].
    eapply fpl_cons; [apply (fp_counted_gen "qpt" 3 q' t); [exact Ht|exact Hl|]|].
    { intros n. unfold follow_ok, follow_plain. destruct (n_exp n); reflexivity. }
    eapply fpl_cons; [apply fp_char|].
    eapply fpl_cons; [apply fp_plus_chr; [exact Hg4|exact Hg40|cbn [concat]; rewrite <- app_assoc; apply num_hd, Hw]|].
    eapply fpl_cons; [apply fp_grp, fixed_fp; [exact Hw|cbn [concat]; rewrite <- ?app_assoc; apply Sp; auto using space_not_digit]|].
    eapply fpl_cons; [apply fp_plus_chr; [exact Hg5|exact Hg50|reflexivity]|]. eapply fpl_cons; [apply fp_char|]. constructor. }
  apply fp_match_at in F. eexists. split.
  - unfold re_match. match goal with |- match_at _ _ ?s = _ => match type of F with match_at _ _ ?s' = _ => replace s with s'; [exact F|] end end.
    cbn [concat]. repeat (rewrite <- ?app_assoc; cbn [app]). reflexivity.
  - unfold group_s. cbn [m_caps cap]. change (String.eqb "w" "qpt") with false. change (String.eqb "qpt" "qpt") with true. cbv iota.
    pose proof (columns_cut _ _ [] Ht) as E. rewrite app_nil_r in E. apply split_cut, E. constructor.
Qed.
(** Optional fields, separated by blanks and ended by a plus sign. *)
Inductive opts : list (string * re) -> list (option str) -> str -> str -> Prop :=
| opts_nil s : opts [] [] ["+"%char] s
| opts_none n r fs os T s : (forall p c, nomatch r p (T ++ s) c) -> opts fs os T s -> opts ((n, r) :: fs) (None :: os) T s
| opts_some n r t g fs os T s : hd_not is_space t -> t <> [] -> forallb is_space g = true -> hd_not is_space (T ++ s) ->
    (forall p c, fp r p t (g ++ T ++ s) c c) -> opts fs os T s -> opts ((n, r) :: fs) (Some t :: os) (t ++ g ++ T) s.
Fixpoint opt_caps (fs : list (string * re)) (os : list (option str)) (c : caps) : caps :=
  match fs, os with
  | (n, _) :: fs, o :: os => opt_caps fs os (match o with Some t => (n, t) :: c | None => c end)
  | _, _ => c
  end.
Definition opt_res (fs : list (string * re)) : list re :=
  flat_map (fun f => [ws_star; ROpt (RGrp (fst f) (snd f))]) fs ++ [ws_star; RChar "+"].
Lemma fp_opts fs os T s : opts fs os T s -> forall g p c, forallb is_space g = true -> hd_not is_space (T ++ s) ->
  fp (RSeqs (opt_res fs)) p (g ++ T) s c (opt_caps fs os c).
Proof.
  assert (Sh : forall n r fs, RSeqs (opt_res ((n, r) :: fs)) = RSeq ws_star (RSeq (ROpt (RGrp n r)) (RSeqs (opt_res fs)))).
  { intros n r [|[n' r'] fs']; reflexivity. }
  induction 1 as [s|n r fs os T s Hn _ IH|n r t g' fs os T s Ht Ht0 Hg' HT Hf _ IH]; intros g p c Hg Hs.
  - cbn [opt_res flat_map app RSeqs opt_caps]. apply fp_seq with (c1 := c); [now apply fp_star_chr|apply fp_char].
  - rewrite Sh. cbn [opt_caps]. apply fp_seq with (c1 := c); [now apply fp_star_chr|].
    change T with ([] ++ T). apply fp_seq with (c1 := c); [apply fp_opt_none, nomatch_grp, Hn|]. cbn [pa].
    exact (IH [] _ c eq_refl Hs).
  - rewrite Sh. cbn [opt_caps]. apply fp_seq with (c1 := c); [now apply fp_star_chr|].
    apply fp_seq with (c1 := (n, t) :: c); [|now apply IH].
    apply fp_opt_some; [exact Ht0|]. apply fp_grp. rewrite <- app_assoc. apply Hf.
Qed.
Lemma hd_not_app {A} (f : A -> bool) t s : t <> [] -> hd_not f t -> hd_not f (t ++ s).
Proof. destruct t; [congruence|]. auto. Qed.

(** A number or the final plus sign. *)
Definition starts_num (c : ascii) : bool := is_digit c || is_sign c || Ascii.eqb c ".".
Definition num_first (s : str) : Prop := match s with c :: _ => starts_num c = true | [] => False end.
Lemma first_nomatch f s p c : num_first s -> (forall x, starts_num x = true -> f x = false) -> nomatch (RChr f) p s c.
Proof.
  intros H Hf. apply nomatch_den. intros p' s' c' (x & -> & Hx & _). cbn in H. rewrite Hf in Hx by exact H. discriminate.
Qed.
Lemma num_num_first n s : num_ok n -> num_first (write_num n ++ s).
Proof.
  intros Hn. pose proof (num_start n s Hn) as H. unfold start_num in H. pose proof (write_num_nonempty n Hn) as N.
  destruct (write_num n) as [|x w]; [congruence|]. cbn in H |- *. unfold starts_num.
  destruct (is_sign x); [now rewrite orb_true_r|]. apply orb_true_iff in H as [->|H]; [reflexivity|]. apply andb_true_iff in H as [H _]. rewrite H. apply orb_true_r.
Qed.
Lemma plus_no_fnumber r p c : token_end r -> nomatch FNUMBER_RE p ("+"%char :: r) c.
Proof.
  intros Hr. apply nomatch_den. intros p' s' c' D. apply den_FNUMBER in D as (sg & a & b & _ & E & _).
  assert (H : exists x u, mant_frac a b ++ s' = x :: u /\ (is_digit x = true \/ x = "."%char)).
  { unfold mant_frac. destruct a as [|d a]; cbn; eexists _, _; (split; [reflexivity|]); [now right|left; now destruct d]. }
  destruct H as (x & u & Eu & Hx). rewrite Eu in E. destruct sg; cbn in E; try discriminate.
  - injection E as <- _. destruct Hx; discriminate.
  - injection E as E. specialize (Hr x u E). apply blank_iff in Hr. destruct Hx as [Hx| ->]; [|discriminate].
    apply digit_not_space in Hx. congruence.
Qed.
Lemma num_first_space s : num_first s -> hd_not is_space s.
Proof. destruct s as [|x s]; [contradiction|]. cbn. revert x. ascii_dec. Qed.
Lemma among_yn c : among "YN" c -> chr_in c (list_ascii_of_string "YN") = true.
Proof. intros [<-|[<-|[]]]; reflexivity. Qed.
Lemma irrep_iff c : irrep_char c -> is_lower c || in_range 65 86 c = true.
Proof.
  unfold is_lower, in_range, ord. intros [[A B]|[A B]]; apply orb_true_iff; [left|right]; apply andb_true_iff; split; apply N.leb_le; assumption.
Qed.
Definition mode_fields : list (string * re) :=
  [("irrep", c_irrep); ("ir_intensity", FNUMBER_RE); ("ir_active", c_of "YN"); ("raman_intensity", FNUMBER_RE); ("raman_active", c_of "YN")]%string.
Definition one (o : option ascii) : option str := option_map (fun c => [c]) o.
Definition numtext {A} (o : option (num * A)) : option str := option_map (fun x => write_num (fst x)) o.
Definition mode_opts (m : mode) : list (option str) :=
  [one (m_irrep m); numtext (m_ir m); one (flag (m_ir m)); option_map write_num (m_raman m); one (m_raman_flag m)].
Lemma opts_flag n o t fs os T s : flag_field o t -> (o = None -> num_first (T ++ s)) -> hd_not is_space (T ++ s) -> opts fs os T s ->
  opts ((n, c_of "YN") :: fs) (one o :: os) (t ++ T) s.
Proof.
  intros [|c g Hc Hg] HT HS H.
  - apply opts_none; [|exact H]. intros p c0. apply first_nomatch; [exact (HT eq_refl)|]. ascii_dec.
  - apply gap_iff in Hg as [Hg Hg0]. change ((c :: g) ++ T) with ([c] ++ g ++ T). apply opts_some; auto.
    + cbn. destruct Hc as [<-|[<-|[]]]; reflexivity.
    + discriminate.
    + intros p c0. apply fp_chr. now apply among_yn.
Qed.
Lemma flag_space o t T : flag_field o t -> hd_not is_space T -> hd_not is_space (t ++ T).
Proof. intros [|c g Hc Hg] H; [exact H|]. cbn. destruct Hc as [<-|[<-|[]]]; reflexivity. Qed.
(** A number and its flag *)
Lemma opts_number n n' x g o u fs os T s : fixed x -> gap g -> flag_field o u -> (o = None -> num_first (T ++ s)) -> hd_not is_space (T ++ s) -> opts fs os T s ->
  opts ((n, FNUMBER_RE) :: (n', c_of "YN") :: fs) (Some (write_num x) :: one o :: os) ((write_num x ++ g ++ u) ++ T) s.
Proof.
  intros Hx Hg Hf HT HS H. apply gap_iff in Hg as [Hg Hg0]. rewrite <- !app_assoc. apply opts_some; auto.
  - pose proof (num_hd x [] (proj1 Hx)) as A. now rewrite app_nil_r in A.
  - apply write_num_nonempty, Hx.
  - rewrite <- app_assoc. eapply flag_space; eassumption.
  - intros p c. apply fixed_fp; [exact Hx|]. destruct g as [|y g]; [congruence|]. cbn in Hg |- *.
    apply andb_true_iff in Hg as [Hy _]. now apply space_not_digit.
  - now apply opts_flag.
Qed.
Lemma yn_no_fnumber y s p c : among "YN" y -> nomatch FNUMBER_RE p (y :: s) c.
Proof.
  intros Hy. apply nomatch_den. intros p' s' c' D. apply den_FNUMBER in D as (sg & a & b & _ & E & _).
  assert (H : exists x u, mant_frac a b ++ s' = x :: u /\ (is_digit x = true \/ x = "."%char)).
  { unfold mant_frac. destruct a as [|d a]; cbn; eexists _, _; (split; [reflexivity|]); [now right|left; now destruct d]. }
  destruct H as (x & u & Eu & Hx). rewrite Eu in E. destruct sg; cbn in E; injection E as E1 E2; destruct Hy as [<-|[<-|[]]]; try discriminate E1; subst x; destruct Hx; discriminate.
Qed.
Lemma opts_mode m t1 t2 t3 r : irrep_field (m_irrep m) t1 -> intensity_field (m_ir m) t2 -> raman_field (m_raman m) (m_raman_flag m) t3 ->
  (m_ir m = None -> m_raman m = None) -> (m_raman m = None -> m_raman_flag m <> None -> flag (m_ir m) <> None) -> token_end r ->
  opts mode_fields (mode_opts m) (t1 ++ t2 ++ t3 ++ ["+"%char]) r /\ hd_not is_space ((t1 ++ t2 ++ t3 ++ ["+"%char]) ++ r).
Proof.
  intros H1 H2 H3 Hir Hfl Hr. unfold mode_fields, mode_opts.
  assert (N0 : num_first (["+"%char] ++ r)) by reflexivity. assert (S0 : hd_not is_space (["+"%char] ++ r)) by reflexivity.
  assert (O3 : opts [("raman_intensity", FNUMBER_RE); ("raman_active", c_of "YN")]%string [option_map write_num (m_raman m); one (m_raman_flag m)] (t3 ++ ["+"%char]) r).
  { destruct H3 as [o t Ho|n g o t Hx _ Hg Ho].
    - cbn [option_map]. apply opts_none; [|apply opts_flag; auto; apply opts_nil]. intros p c. destruct Ho as [|y g Hy Hg]; [now apply plus_no_fnumber|now apply yn_no_fnumber].
    - cbn [option_map]. apply opts_number; auto. apply opts_nil. }
  assert (S3 : hd_not is_space ((t3 ++ ["+"%char]) ++ r)).
  { rewrite <- app_assoc. destruct H3 as [o t Ho|n g o t Hx _ Hg Ho]; [eapply flag_space; eassumption|]. rewrite <- app_assoc. apply num_hd, Hx. }
  assert (N3 : flag (m_ir m) = None -> num_first ((t3 ++ ["+"%char]) ++ r)).
  { intros E. destruct H3 as [o t Ho|n g o t Hx _ Hg Ho].
    - destruct Ho as [|y g Hy Hg]; [reflexivity|]. exfalso. apply Hfl; [reflexivity|discriminate|exact E].
    - rewrite <- !app_assoc. apply num_num_first, Hx. }
  assert (E3 : m_ir m = None -> t3 = []).
  { intros E. specialize (Hir E). destruct H3 as [o t Ho|n g o t Hx _ Hg Ho]; [|discriminate Hir]. destruct Ho as [|y g Hy Hg]; [reflexivity|].
    exfalso. apply Hfl; [reflexivity|discriminate|now rewrite E]. }
  assert (O2 : opts [("ir_intensity", FNUMBER_RE); ("ir_active", c_of "YN"); ("raman_intensity", FNUMBER_RE); ("raman_active", c_of "YN")]%string
    [numtext (m_ir m); one (flag (m_ir m)); option_map write_num (m_raman m); one (m_raman_flag m)] (t2 ++ t3 ++ ["+"%char]) r).
  { destruct H2 as [|x g f u Hx Hfit Hg Hf]; cbn [numtext option_map fst flag].
    - apply opts_none; [intros p c; rewrite (E3 eq_refl); now apply plus_no_fnumber|]. apply (opts_flag "ir_active" None []); [constructor|intros _; now apply N3|exact S3|exact O3].
    - apply opts_number; auto. }
  assert (N2 : num_first ((t2 ++ t3 ++ ["+"%char]) ++ r)).
  { destruct H2 as [|x g f u Hx Hfit Hg Hf]; [now rewrite (E3 eq_refl)|]. rewrite <- !app_assoc. apply num_num_first, Hx. }
  destruct H1 as [|c g Hc Hg].
  - split; [|now apply num_first_space]. apply opts_none; [|exact O2]. intros p c. apply first_nomatch; [exact N2|]. ascii_dec.
  - apply gap_iff in Hg as [Hg Hg0]. apply irrep_iff in Hc. assert (Hcs : is_space c = false) by (clear -Hc; revert c Hc; ascii_dec).
    split; [|exact Hcs]. change ((c :: g) ++ t2 ++ t3 ++ ["+"%char]) with ([c] ++ g ++ (t2 ++ t3 ++ ["+"%char])). apply opts_some; auto.
    + discriminate.
    + now apply num_first_space.
    + intros p c0. now apply fp_chr.
Qed.
Definition mode_head : list re :=
  [ws_plus; RChar "+"; ws_plus; RGrp "N" (RPlus c_digit); ws_plus; RGrp "frequency" FNUMBER_RE].
Definition raw (k : string) (o : option str) : key * pyval := (kstr k, opt_val o).
Definition mode_raw (m : mode) : list (key * pyval) :=
  [raw "N" (Some (write_digits (m_no m))); raw "frequency" (Some (write_num (m_freq m))); raw "irrep" (one (m_irrep m));
   raw "ir_intensity" (numtext (m_ir m)); raw "ir_active" (one (flag (m_ir m)));
   raw "raman_intensity" (option_map write_num (m_raman m)); raw "raman_active" (one (m_raman_flag m))].
Lemma mode_match l m : mode_line l m -> exists x, re_match PROCESS_PHONON_RE l = Some x /\ groupdict PROCESS_PHONON_RE x = mode_raw m.
Proof.
  intros [a g1 g2 g3 t1 t2 t3 r m' Ha Hg1 Hn Hg2 Hf Hff Hg3 H1 H2 H3 Hir Hfl Hr].
  apply gap_iff in Ha as [Ha Ha0], Hg1 as [Hg1 Hg10], Hg2 as [Hg2 Hg20], Hg3 as [Hg3 Hg30].
  destruct (opts_mode m' t1 t2 t3 r H1 H2 H3 Hir Hfl Hr) as [O Os]. set (T := t1 ++ t2 ++ t3 ++ ["+"%char]) in *.
  set (c1 := [("frequency", write_num (m_freq m')); ("N", write_digits (m_no m'))]%string).
  assert (Sp : forall f g u, forallb is_space g = true -> g <> [] -> (forall c, is_space c = true -> f c = false) -> hd_not f (g ++ u)).
  { intros f [|x g] u Hx H0 H; [congruence|]. cbn in Hx |- *. apply andb_true_iff in Hx as [Hx _]. auto. }
  assert (F1 : fp (RSeqs mode_head) None (concat [a; ["+"%char]; g1; write_digits (m_no m'); g2; write_num (m_freq m')]) ((g3 ++ T) ++ r) [] c1).
  { apply fp_seqs. eapply fpl_cons; [apply fp_plus_chr; [exact Ha|exact Ha0|reflexivity]|]. eapply fpl_cons; [apply fp_char|].
    eapply fpl_cons; [apply fp_plus_chr; [exact Hg1|exact Hg10|cbn [concat]; rewrite <- app_assoc; apply write_digits_hd; auto using digit_not_space]|].
    eapply fpl_cons; [apply fp_grp, fp_plus_chr; [apply write_digits_all|destruct (m_no m'); [congruence|discriminate]|cbn [concat]; rewrite <- app_assoc; apply Sp; auto using space_not_digit]|].
    eapply fpl_cons; [apply fp_plus_chr; [exact Hg2|exact Hg20|cbn [concat]; rewrite <- app_assoc; apply num_hd, Hf]|].
    eapply fpl_cons; [apply fp_grp, fixed_fp; [exact Hf|cbn [concat app]; rewrite <- app_assoc; apply Sp; auto using space_not_digit]|]. constructor. }
  set (w := concat [a; ["+"%char]; g1; write_digits (m_no m'); g2; write_num (m_freq m')]) in *.
  pose proof (fp_opts _ _ _ _ O g3 (pa None w) c1 Hg3 Os) as F2.
  pose proof (fp_seqs_app mode_head (opt_res mode_fields) None w (g3 ++ T) r [] c1 _ ltac:(discriminate) ltac:(discriminate) F1 F2) as F.
  change (RSeqs (mode_head ++ opt_res mode_fields)) with PROCESS_PHONON_RE in F. apply fp_match_at in F.
  eexists. split.
  - unfold re_match. match goal with |- match_at _ _ ?s = _ => match type of F with match_at _ _ ?s' = _ => replace s with s'; [exact F|] end end.
    unfold w, T. cbn [concat]. repeat (rewrite <- ?app_assoc; cbn [app]). reflexivity.
  - clear. unfold groupdict, mode_raw, raw, numtext, flag, one, mode_opts, c1. cbn [m_caps]. destruct m' as [no fr irr ir ra rf]. cbn [m_no m_freq m_irrep m_ir m_raman m_raman_flag].
    destruct irr, ir as [[? []]|], ra, rf; reflexivity.
Qed.
(** Both kinds of lines start with blanks and a plus sign. *)
Lemma plus_start (rs : list re) l x : re_match (RSeqs (ws_plus :: RChar "+" :: rs)) l = Some x ->
  exists a r, l = a ++ "+"%char :: r /\ gap a.
Proof.
  intros E. unfold re_match, match_at in E. apply m_sound in E as (p' & s' & c' & D & _).
  assert (D' : exists p1 s1 c1 p2 s2 c2, den ws_plus None l [] p1 s1 c1 /\ den (RChar "+") p1 s1 c1 p2 s2 c2).
  { destruct rs as [|r rs]; cbn [RSeqs] in D; destruct D as (p1 & s1 & c1 & D1 & D2); [eauto 10|].
    change (RSeqs (RChar "+" :: r :: rs)) with (RSeq (RChar "+") (RSeqs (r :: rs))) in D2.
    destruct D2 as (p2 & s2 & c2 & D2 & _). eauto 10. }
  destruct D' as (p1 & s1 & c1 & p2 & s2 & c2 & D1 & D2). apply (den_rep_chr true 1 None is_space) in D1 as (w & -> & Hl & _ & Hw & _ & _).
  destruct D2 as (y & -> & Hy & _). apply Ascii.eqb_eq in Hy. subst y. exists w, s2. split; [reflexivity|].
  apply gap_iff. split; [exact Hw|]. destruct w; [cbn in Hl; lia|discriminate].
Qed.
Lemma worded_at r rs l x : re_match (RSeqs (ws_plus :: RChar "+" :: ws_plus :: r :: rs)) l = Some x -> rs <> [] -> exists w1 w3 p s c p' s' c',
  l = w1 ++ "+"%char :: w3 ++ s /\ forallb is_space w1 = true /\ forallb is_space w3 = true /\ den r p s c p' s' c'.
Proof.
  intros E Hrs. unfold re_match, match_at in E. apply m_sound in E as (p' & s' & c' & D & _). destruct rs as [|r0 rs]; [congruence|]. cbn [RSeqs] in D.
  destruct D as (p1 & s1 & c1 & D1 & p2 & s2 & c2 & D2 & p3 & s3 & c3 & D3 & p4 & s4 & c4 & D4 & _).
  apply (den_rep_chr true 1 None is_space) in D1 as (w1 & E1 & _ & _ & Hw1 & _ & _). destruct D2 as (y & E2 & Hy & _). apply Ascii.eqb_eq in Hy. subst y.
  apply (den_rep_chr true 1 None is_space) in D3 as (w3 & E3 & _ & _ & Hw3 & _ & _).
  exists w1, w3, p3, s3, c3, p4, s4, c4. split; [congruence|]. auto.
Qed.
Lemma digit_among c : is_digit c = true -> among "0123456789" c.
Proof. destruct c as [[] [] [] [] [] [] [] []]; intros H; try discriminate H; cbn; tauto. Qed.
Lemma worded_split a g c t w1 w3 y s : gap a -> blanks g -> ~ blank c -> forallb is_space w1 = true -> forallb is_space w3 = true -> is_space y = false ->
  a ++ "+"%char :: g ++ c :: t = w1 ++ "+"%char :: w3 ++ y :: s -> c = y /\ t = s.
Proof.
  intros Ha Hg Hc H1 H3 Hy E. apply gap_iff in Ha as [Ha _]. apply blanks_iff in Hg.
  apply (run_unique is_space) in E as (_ & _ & E); auto. apply (run_unique is_space) in E as (_ & E1 & E2); auto.
  destruct (is_space c) eqn:Ec; [exfalso; apply Hc; now apply blank_iff|reflexivity].
Qed.
Lemma other_header l : unmarked l -> re_match PHONON_RE l = None.
Proof.
  intros [H|[H|H]].
  - apply (needs_match is_digit); [vm_compute; reflexivity|now apply lacks_digits].
  - destruct (re_match PHONON_RE l) as [x|] eqn:E; [|reflexivity]. apply plus_start in E as (a & r & -> & Ha). exfalso. exact (H a r Ha eq_refl).
  - destruct (re_match PHONON_RE l) as [x|] eqn:E; [exfalso|reflexivity]. destruct H as (a & g & c & r & -> & Ha & Hg & Hc & _ & Hq).
    apply worded_at in E as (w1 & w3 & p & s & c0 & p' & s' & c' & E & H1 & H3 & D); [|discriminate]. apply (den_lit ($"q-pt=")) in D as (D & _). subst s.
    cbn [list_ascii_of_string app] in E. apply worded_split in E as [-> ->]; auto. apply Hq. exists s'. reflexivity.
Qed.
Lemma other_mode l : unmarked l -> re_match PROCESS_PHONON_RE l = None.
Proof.
  intros [H|[H|H]].
  - apply (needs_match is_digit); [vm_compute; reflexivity|now apply lacks_digits].
  - destruct (re_match PROCESS_PHONON_RE l) as [x|] eqn:E; [|reflexivity]. apply plus_start in E as (a & r & -> & Ha). exfalso. exact (H a r Ha eq_refl).
  - destruct (re_match PROCESS_PHONON_RE l) as [x|] eqn:E; [exfalso|reflexivity]. destruct H as (a & g & c & r & -> & Ha & Hg & Hc & Hd & _).
    apply worded_at in E as (w1 & w3 & p & s & c0 & p' & s' & c' & E & H1 & H3 & D); [|discriminate]. destruct D as (c1 & D & _).
    apply (den_rep_chr true 1 None is_digit) in D as (w & -> & Hl & _ & Hw & _ & _). destruct w as [|y w]; [cbn in Hl; lia|]. cbn in Hw. apply andb_true_iff in Hw as [Hy _].
    cbn [app] in E. apply worded_split in E as [-> _]; auto using digit_not_space. apply Hd. now apply digit_among.
Qed.
Lemma other_rep l : not_phonon l -> re_test REP_MUL_RE l = false.
Proof.
  intros [_ H]. unfold re_test, re_search. destruct (search_from REP_MUL_RE None l) as [[pre x]|] eqn:E; [|reflexivity].
  exfalso. apply H. apply search_sound in E as (s' & E & E' & D). destruct D as (p1 & s1 & c1 & D & _).
  apply (den_lit ($"Rep")) in D as (D & _ & _). exists pre, s1. rewrite E. f_equal. congruence.
Qed.
Lemma mode_no_header l m : mode_line l m -> re_match PHONON_RE l = None.
Proof.
  intros [a g1 g2 g3 t1 t2 t3 r m' Ha Hg1 Hn _ _ _ _ _ _ _ _ _ _].
  destruct (re_match PHONON_RE _) as [x|] eqn:E; [exfalso|reflexivity].
  unfold re_match, match_at in E. apply m_sound in E as (p' & s' & c' & D & _). unfold PHONON_RE in D. cbn [RSeqs] in D.
  destruct D as (p1 & s1 & c1 & D1 & p2 & s2 & c2 & D2 & p3 & s3 & c3 & D3 & p4 & s4 & c4 & D4 & _).
  apply gap_iff in Ha as [Ha _], Hg1 as [Hg1 _].
  apply (den_rep_chr true 1 None is_space) in D1 as (w1 & E1 & _ & _ & Hw1 & _ & _).
  destruct D2 as (y & -> & Hy & _). apply Ascii.eqb_eq in Hy. subst y.
  apply (den_rep_chr true 1 None is_space) in D3 as (w3 & -> & _ & _ & Hw3 & _ & _).
  apply (den_lit ($"q-pt=")) in D4 as (D4 & _). rewrite D4 in E1. cbn [list_ascii_of_string app] in E1.
  apply (run_unique is_space) in E1 as (_ & _ & E1); auto. destruct (m_no m') as [|d ds]; [congruence|]. cbn [write_digits map app] in E1.
  apply (run_unique is_space) in E1 as (_ & E1 & _); auto; [|apply digit_not_space, digit_char_digit]. now destruct d.
Qed.
(** The values collected so far. *)
Definition raw_cols (ms : list mode) : qdict :=
  [(kstr "N", map (fun m => opt_val (Some (write_digits (m_no m)))) ms);
   (kstr "frequency", map (fun m => opt_val (Some (write_num (m_freq m)))) ms);
   (kstr "irrep", map (fun m => opt_val (one (m_irrep m))) ms);
   (kstr "ir_intensity", map (fun m => opt_val (numtext (m_ir m))) ms);
   (kstr "ir_active", map (fun m => opt_val (one (flag (m_ir m)))) ms);
   (kstr "raman_intensity", map (fun m => opt_val (option_map write_num (m_raman m))) ms);
   (kstr "raman_active", map (fun m => opt_val (one (m_raman_flag m))) ms)].
Definition qstate (q : list num) (ms : list mode) : qdict :=
  (kstr "qpt", map (fun n => VStr (write_num n)) q) :: match ms with [] => [] | _ => raw_cols ms end.
Lemma stack_mode q ms m : stack_dict true (qstate q ms) (mode_raw m) = Ok (qstate q (ms ++ [m])).
Proof.
  destruct ms as [|m0 ms]; [reflexivity|]. unfold qstate. cbn [app]. unfold raw_cols. rewrite !map_cons.
  rewrite !map_app. reflexivity.
Qed.
Record mode_ok (m : mode) : Prop := {
  mo_no : m_no m <> [];
  mo_freq : num_ok (m_freq m) /\ fits (num_value (m_freq m));
  mo_ir : forall n o, m_ir m = Some (n, o) -> num_ok n /\ fits (num_value n);
  mo_raman : forall n, m_raman m = Some n -> num_ok n /\ fits (num_value n) }.
Lemma mode_line_ok l m : mode_line l m -> mode_ok m.
Proof.
  intros [a g1 g2 g3 t1 t2 t3 r m' Ha Hg1 Hn Hg2 Hf Hff Hg3 H1 H2 H3 Hir Hrf Hr].
  assert (I : forall o t, intensity_field o t -> forall n f, o = Some (n, f) -> num_ok n /\ fits (num_value n)).
  { intros o t [|x g f u Hx Hfit Hg Hfl] n0 f0 E; [discriminate|]. injection E as -> ->. exact (conj (proj1 Hx) Hfit). }
  constructor; auto.
  - exact (conj (proj1 Hf) Hff).
  - exact (I _ _ H2).
  - intros n0 E. destruct H3 as [o t Ho|n g o t Hx Hfit Hg Ho]; [discriminate E|]. injection E as <-. exact (conj (proj1 Hx) Hfit).
Qed.
Lemma fix_step d k t ts v w : dget key_eqb d k = Some v -> to_type t v = Ok w ->
  fix_data_types d ((k, t) :: ts) = fix_data_types (dset key_eqb d k w) ts.
Proof. intros E1 E2. unfold fix_data_types. cbn [foldM fst snd]. now rewrite E1, E2. Qed.
Lemma fix_skip d k t ts : dget key_eqb d k = None -> fix_data_types d ((k, t) :: ts) = fix_data_types d ts.
Proof. intros E1. unfold fix_data_types. cbn [foldM fst snd]. now rewrite E1. Qed.
Lemma col_type t (f g : mode -> pyval) ms : (forall m, In m ms -> to_type t (f m) = Ok (g m)) -> to_type t (VList (map f ms)) = Ok (VTuple (map g ms)).
Proof. intros H. cbn [to_type]. rewrite (TypeConvFacts.mapM_map _ _ g); [reflexivity|exact H]. Qed.
Lemma existsb_map' {A B} (f : A -> B) p l : existsb p (map f l) = existsb (fun x => p (f x)) l.
Proof. induction l as [|x l IH]; [reflexivity|]. cbn. now rewrite IH. Qed.
Lemma existsb_ext_in {A} (f g : A -> bool) l : (forall x, In x l -> f x = g x) -> existsb f l = existsb g l.
Proof. induction l as [|x l IH]; intros H; [reflexivity|]. cbn. rewrite H, IH; auto; [|now left]. intros y Hy. apply H. now right. Qed.
Lemma qdata_block q ms : Forall num_wf q -> all_fit q -> Forall mode_ok ms -> process_qdata (qstate q ms) = Ok (qpoint (q, ms, [])).
Proof.
  intros Hw Hf Hm. unfold process_qdata.
  assert (Tq : to_type TFloat (VList (map (fun n => VStr (write_num n)) q)) = Ok (vector q)).
  { cbn [to_type]. rewrite (TypeConvFacts.mapM_map _ _ SpecCastep.float_of); [reflexivity|]. intros n Hn. unfold all_fit in Hf.
    rewrite Forall_forall in Hw, Hf. apply CellPosFacts.float_of_num; auto. }
  rewrite Forall_forall in Hm. destruct ms as [|m0 ms0] eqn:Ems.
  - unfold qstate. cbn [filter fst snd]. change (key_eqb (kstr "qpt") (kstr "qpt")) with true. rewrite orb_true_r. cbn [map fst snd].
    erewrite fix_step; [|reflexivity|exact Tq]. reflexivity.
  - rewrite <- Ems in *. assert (Hne : ms <> []) by (subst; discriminate).
    assert (EqN : qstate q ms = (kstr "qpt", map (fun n => VStr (write_num n)) q) :: raw_cols ms) by (subst ms; reflexivity).
    rewrite EqN. clear EqN. unfold raw_cols. cbn [filter fst snd].
    change (key_eqb (kstr "qpt") (kstr "qpt")) with true. rewrite orb_true_r.
    repeat match goal with |- context [key_eqb (kstr ?a) (kstr "qpt")] => change (key_eqb (kstr a) (kstr "qpt")) with false end.
    rewrite !orb_false_r, !existsb_map'.
    assert (E0 : forall f : mode -> bool, (forall m, In m ms -> f m = true) -> existsb f ms = true).
    { intros f Hff. subst ms. cbn. rewrite (Hff m0) by now left. reflexivity. }
    assert (Ne : forall n, num_ok n -> isempty (write_num n) = false).
    { intros n Hn. pose proof (write_num_nonempty n Hn). destruct (write_num n); [congruence|reflexivity]. }
    assert (So : forall o, some_true (opt_val (one o)) = shown o) by (intros [c|]; reflexivity).
    rewrite (E0 (fun m => some_true (opt_val (Some (write_digits (m_no m)))))).
    2:{ intros m Hin. destruct (Hm m Hin) as [Hd _ _ _]. cbn. destruct (m_no m); [congruence|reflexivity]. }
    rewrite (E0 (fun m => some_true (opt_val (Some (write_num (m_freq m)))))).
    2:{ intros m Hin. destruct (Hm m Hin) as [_ [Hq _] _ _]. cbn. now rewrite Ne. }
    rewrite (existsb_ext_in (fun m => some_true (opt_val (one (m_irrep m)))) (fun m => shown (m_irrep m))) by (intros; apply So).
    rewrite (existsb_ext_in (fun m => some_true (opt_val (one (flag (m_ir m))))) (fun m => shown (flag (m_ir m)))) by (intros; apply So).
    rewrite (existsb_ext_in (fun m => some_true (opt_val (one (m_raman_flag m)))) (fun m => shown (m_raman_flag m))) by (intros; apply So).
    rewrite (existsb_ext_in (fun m => some_true (opt_val (numtext (m_ir m)))) (fun m => shown (m_ir m))).
    2:{ intros m Hin. destruct (Hm m Hin) as [_ _ Hi _]. destruct (m_ir m) as [[n o]|]; [|reflexivity]. cbn. now rewrite (Ne n (proj1 (Hi n o eq_refl))). }
    rewrite (existsb_ext_in (fun m => some_true (opt_val (option_map write_num (m_raman m)))) (fun m => shown (m_raman m))).
    2:{ intros m Hin. destruct (Hm m Hin) as [_ _ _ Hi]. destruct (m_raman m) as [n|]; [|reflexivity]. cbn. now rewrite (Ne n (proj1 (Hi n eq_refl))). }
    assert (TN : to_type TInt (VList (map (fun m => opt_val (Some (write_digits (m_no m)))) ms)) = Ok (VTuple (map (fun m => VInt (decimal (m_no m))) ms))).
    { apply col_type. intros m Hin. destruct (Hm m Hin) as [Hd _ _ _]. cbn [opt_val to_type]. unfold parse_text. now rewrite py_int_digits. }
    assert (TF : to_type TFloat (VList (map (fun m => opt_val (Some (write_num (m_freq m)))) ms)) = Ok (VTuple (map (fun m => SpecCastep.float_of (m_freq m)) ms))).
    { apply col_type. intros m Hin. destruct (Hm m Hin) as [_ [Hq1 Hq2] _ _]. apply CellPosFacts.float_of_num; [now apply num_ok_wf|exact Hq2]. }
    assert (TI : to_type TFloat (VList (map (fun m => opt_val (numtext (m_ir m))) ms)) = Ok (VTuple (map (fun m => opt_float (m_ir m)) ms))).
    { apply col_type. intros m Hin. destruct (Hm m Hin) as [_ _ Hi _]. destruct (m_ir m) as [[n o]|]; [|reflexivity]. destruct (Hi n o eq_refl).
      apply CellPosFacts.float_of_num; [now apply num_ok_wf|assumption]. }
    assert (TR : to_type TFloat (VList (map (fun m => opt_val (option_map write_num (m_raman m))) ms)) = Ok (VTuple (map (fun m => opt_num (m_raman m)) ms))).
    { apply col_type. intros m Hin. destruct (Hm m Hin) as [_ _ _ Hi]. destruct (m_raman m) as [n|]; [|reflexivity]. destruct (Hi n eq_refl).
      apply CellPosFacts.float_of_num; [now apply num_ok_wf|assumption]. }
    assert (L1 : map (fun m => opt_val (one (m_irrep m))) ms = map (fun m => opt_text (m_irrep m)) ms).
    { apply map_ext. intros m. now destruct (m_irrep m). }
    assert (L2 : map (fun m => opt_val (one (flag (m_ir m)))) ms = map (fun m => opt_flag (m_ir m)) ms).
    { apply map_ext. intros m. now destruct (m_ir m) as [[n []]|]. }
    assert (L3 : map (fun m => opt_val (one (m_raman_flag m))) ms = map (fun m => opt_text (m_raman_flag m)) ms).
    { apply map_ext. intros m. now destruct (m_raman_flag m). }
    rewrite L1, L2, L3. unfold qpoint, column. cbn [fst snd]. rewrite ?app_nil_r.
    rewrite (E0 (fun _ => true)) by reflexivity.
    set (lN := map (fun m => opt_val (Some (write_digits (m_no m)))) ms) in *. set (lF := map (fun m => opt_val (Some (write_num (m_freq m)))) ms) in *.
    set (lI := map (fun m => opt_val (numtext (m_ir m))) ms) in *. set (lR := map (fun m => opt_val (option_map write_num (m_raman m))) ms) in *.
    set (vN := VTuple (map (fun m => VInt (decimal (m_no m))) ms)) in *. set (vF := VTuple (map (fun m => SpecCastep.float_of (m_freq m)) ms)) in *.
    set (vI := VTuple (map (fun m => opt_float (m_ir m)) ms)) in *. set (vR := VTuple (map (fun m => opt_num (m_raman m)) ms)) in *.
    set (lq := map (fun n => VStr (write_num n)) q) in *.
    generalize (map (fun m => opt_text (m_irrep m)) ms) (map (fun m => opt_flag (m_ir m)) ms) (map (fun m => opt_text (m_raman_flag m)) ms). intros x1 x2 x3.
    generalize (existsb (fun m => shown (m_irrep m)) ms) (existsb (fun m => shown (m_ir m)) ms) (existsb (fun m => shown (flag (m_ir m))) ms)
      (existsb (fun m => shown (m_raman m)) ms) (existsb (fun m => shown (m_raman_flag m)) ms).
    clearbody lN lF lI lR vN vF vI vR lq. clear -Tq TN TF TI TR. intros b1 b2 b3 b4 b5.
    destruct b1, b2, b3, b4, b5; cbn [app map fst snd];
      (erewrite fix_step; [|reflexivity|exact Tq]); (erewrite fix_step; [|reflexivity|exact TN]); (erewrite fix_step; [|reflexivity|exact TF]);
      (first [(erewrite fix_step; [|reflexivity|exact TI]) | rewrite fix_skip by reflexivity]);
      (first [(erewrite fix_step; [|reflexivity|exact TR]) | rewrite fix_skip by reflexivity]); reflexivity.
Qed.
(** The character table is kept beside the columns. *)
Lemma fix_apart k v ts : (forall t, In t ts -> fst t <> k) -> forall d, fix_data_types (d ++ [(k, v)]) ts = rmap (fun d' => d' ++ [(k, v)]) (fix_data_types d ts).
Proof.
  unfold fix_data_types. induction ts as [|[k' t] ts IH]; intros H d; [reflexivity|]. cbn [foldM fst snd].
  assert (N : k' <> k) by exact (H (k', t) (or_introl eq_refl)).
  assert (G : dget key_eqb (d ++ [(k, v)]) k' = dget key_eqb d k').
  { clear -N. induction d as [|[k0 v0] d IH]; cbn [app dget]; [|now rewrite IH]. destruct (key_eqb k k') eqn:E; [apply TextParsersFacts.key_eqb_eq in E; congruence|reflexivity]. }
  rewrite G. destruct (dget key_eqb d k') as [w|] eqn:Ew; [|now apply IH; intros t0 Ht; apply H; right].
  destruct (to_type t w) as [u|e]; [|reflexivity]. cbn [rmap bind].
  assert (S : dset key_eqb (d ++ [(k, v)]) k' u = dset key_eqb d k' u ++ [(k, v)]).
  { clear -Ew. induction d as [|[k0 v0] d IH]; [discriminate|]. cbn [app dget dset] in *. destruct (key_eqb k0 k'); [reflexivity|]. cbn [app]. now rewrite IH. }
  rewrite S. apply IH. intros t0 Ht. apply H. now right.
Qed.
Definition tab (o : option (list pyval)) : qdict := match o with Some rows => [(kstr "char_table", rows)] | None => [] end.
Definition tab_rows (o : option (list pyval)) : list pyval := match o with Some rows => rows | None => [] end.
Definition entries (v : pyval) : Prop := exists d, v = VDict false d /\ d <> [].
Lemma qdata_table q ms o : Forall num_wf q -> all_fit q -> Forall mode_ok ms -> Forall entries (tab_rows o) -> process_qdata (qstate q ms ++ tab o) = Ok (qpoint (q, ms, tab_rows o)).
Proof.
  intros Hq Hf Hm Ho. pose proof (qdata_block q ms Hq Hf Hm) as B. destruct o as [rows|]; cbn [tab tab_rows] in *; [|now rewrite app_nil_r].
  unfold process_qdata in B |- *. rewrite filter_app, map_app. cbn [filter fst snd]. change (key_eqb (kstr "char_table") (kstr "qpt")) with false. rewrite orb_false_r.
  destruct rows as [|v rows]; [cbn [existsb map]; rewrite app_nil_r; exact B|].
  assert (E : existsb some_true (v :: rows) = true) by (inversion Ho as [|? ? (d & -> & Hd) _]; subst; cbn; destruct d; [congruence|reflexivity]).
  rewrite E. cbn [map fst snd]. rewrite fix_apart by (intros t Ht; cbn [In] in Ht; repeat (destruct Ht as [<-|Ht]; [discriminate|]); destruct Ht).
  destruct (fix_data_types _ _) as [d|e] in B |- *; [|discriminate B]. cbn [rmap] in B |- *. injection B as ->. unfold qpoint. cbn [fst snd]. rewrite app_nil_r. cbn [app]. rewrite <- !app_assoc. reflexivity.
Qed.
Lemma store_new q ms o done : q <> [] -> Forall num_wf q -> all_fit q -> Forall mode_ok ms -> Forall entries (tab_rows o) ->
  store_qdata (qstate q ms ++ tab o) (map qpoint done) = Ok (map qpoint (done ++ [(q, ms, tab_rows o)])).
Proof.
  intros Hq Hw Hf Hm Ho. unfold store_qdata.
  assert (E : qpt_of (qstate q ms ++ tab o) = map (fun n => VStr (write_num n)) q) by reflexivity. rewrite E.
  assert (isempty (map (fun n => VStr (write_num n)) q) = false) as -> by (destruct q; [congruence|reflexivity]).
  replace (existsb _ (map qpoint done)) with false.
  2:{ symmetry. induction done as [|b done IH]; [reflexivity|]. cbn [map existsb]. rewrite IH, orb_false_r. reflexivity. }
  cbn [negb andb]. rewrite qdata_table by assumption. cbn [rmap]. now rewrite map_app.
Qed.
(** ** Character tables *)
Lemma stop_iff l : table_stop l <-> char_stop l = true.
Proof.
  unfold table_stop, char_stop. rewrite !orb_true_iff, somewhere_iff by reflexivity.
  assert (B : forall w, begins w l <-> startswith ($w) l = true) by (intros w; apply BandsFacts.begins_iff).
  rewrite !B. assert (D : (exists a d b, l = a ++ d ++ b /\ length d = 4 /\ Forall (among "-=") d) <-> exists a u b, l = a ++ u ++ b /\ lang (RRep true 4 None (c_of "-=")) u).
  { assert (A : forall d, Forall (among "-=") d <-> forallb (fun c => chr_in c ($"-=")) d = true).
    { intros d. rewrite forallb_forall, Forall_forall. split; intros H c Hc; specialize (H c Hc).
      - destruct H as [<-|[<-|[]]]; reflexivity.
      - cbn in H. apply orb_true_iff in H as [H|H]; [apply Ascii.eqb_eq in H; left; congruence|]. apply orb_true_iff in H as [H|H]; [apply Ascii.eqb_eq in H; right; left; congruence|discriminate]. }
    split.
    - intros (a & d & b & -> & Hl & Hd). exists a, d, b. split; [reflexivity|]. cbn [lang]. exists 4. split; [lia|]. split; [exact I|]. apply many_chr. split; [exact Hl|]. now apply A.
    - intros (a & u & b & -> & n & Hn & _ & M). apply many_chr in M as [Hl Hu]. exists a, (firstn 4 u), (skipn 4 u ++ b). split; [now rewrite (app_assoc (firstn 4 u)), firstn_skipn|].
      split; [apply firstn_length_le; lia|]. apply A in Hu. rewrite <- (firstn_skipn 4 u) in Hu. now apply Forall_app in Hu. }
  rewrite D. tauto.
Qed.
Lemma end_iff l : table_end l <-> re_test CHAR_END_RE l = true.
Proof.
  unfold CHAR_END_RE. rewrite table_split by reflexivity. unfold table_end. 
  assert (A : forall d, Forall (among "-=") d <-> forallb (fun c => chr_in c ($"-=")) d = true).
  { intros d. rewrite forallb_forall, Forall_forall. split; intros H c Hc; specialize (H c Hc).
    - destruct H as [<-|[<-|[]]]; reflexivity.
    - cbn in H. apply orb_true_iff in H as [H|H]; [apply Ascii.eqb_eq in H; left; congruence|]. apply orb_true_iff in H as [H|H]; [apply Ascii.eqb_eq in H; right; left; congruence|discriminate]. }
  split.
  - intros (a & g & d & g' & b & Ha & Hg & Hd0 & Hd & Hg' & Hb & ->). exists a, ["+"%char], g, d, g', ["+"%char], b.
    repeat match goal with |- _ /\ _ => split end; try assumption; try (now apply lang_char); [|reflexivity]. apply lang_plus. split; [now apply A|exact Hd0].
  - intros (a & b1 & g & u & g' & b2 & b & Ha & L1 & Hg & Lt & Hg' & L2 & Hb & ->). apply lang_char in L1, L2. subst b1 b2. apply lang_plus in Lt as [Hu Hu0].
    exists a, g, u, g', b. repeat match goal with |- _ /\ _ => split end; try assumption; [now apply A|reflexivity].
Qed.
Lemma split_one h t : ~ In "|"%char h -> ~ In "|"%char t -> split_chr "|" (h ++ "|"%char :: t) = [h; t].
Proof.
  intros Hh Ht. assert (E : split_chr "|" t = [t]).
  { induction t as [|c t IH]; [reflexivity|]. cbn [split_chr]. destruct (Ascii.eqb_spec c "|") as [->|_]; [exfalso; apply Ht; now left|]. rewrite IH; [reflexivity|]. intros H. apply Ht. now right. }
  induction h as [|c h IH]; cbn [app split_chr].
  - change (Ascii.eqb "|" "|") with true. cbv iota. now rewrite E.
  - destruct (Ascii.eqb_spec c "|") as [->|_]; [exfalso; apply Hh; now left|]. rewrite IH; [reflexivity|]. intros H. apply Hh. now right.
Qed.
Lemma last_snoc {A} (l : list A) x : last_of (l ++ [x]) = Ok (l, x).
Proof. unfold last_of. rewrite rev_app_distr. cbn. now rewrite rev_involutive. Qed.
Lemma zip_spec vs : Forall num_wf vs -> Forall is_int vs -> forall hs, zip_ints hs (map write_num vs) = Ok (map (fun x => VTuple [VStr (fst x); VInt (int_value (snd x))]) (combine hs vs)).
Proof.
  induction vs as [|v vs IH]; intros Hw Hi hs; [destruct hs; reflexivity|]. inversion Hw; subst. inversion Hi; subst. destruct hs as [|h hs]; [reflexivity|]. cbn [map zip_ints].
  rewrite py_int_num by assumption. cbn [bind]. rewrite IH by assumption. reflexivity.
Qed.
Lemma char_row_spec hs l v : char_line hs l v -> char_stop l = false /\ char_row hs l = Ok v /\ entries v.
Proof.
  intros [h t w rep nm mul vs e Hh Ht Hs Ch Hm Im Ct Hv Iv]. split.
  { destruct (char_stop _) eqn:E; [|reflexivity]. apply stop_iff in E. contradiction. }
  split; [|eexists; split; [reflexivity|discriminate]].
  unfold char_row. rewrite split_one by assumption. rewrite (split_cut _ _ Ch), last_snoc. cbn [bind]. rewrite (split_cut _ _ Ct), last_snoc. cbn [bind].
  rewrite zip_spec by assumption. cbn [bind]. rewrite py_int_num by assumption. reflexivity.
Qed.
Lemma char_rows_spec hs ls rows rest : Forall2 (char_line hs) ls rows -> (forall y r, rest = y :: r -> table_stop y) -> char_rows hs (ls ++ rest) = Ok rows /\ Forall entries rows.
Proof.
  intros H Hr. induction H as [|l v ls rows Hl _ [IH1 IH2]]; cbn [app].
  - split; [|constructor]. destruct rest as [|y r]; [reflexivity|]. cbn [char_rows]. now rewrite (proj1 (stop_iff y) (Hr y r eq_refl)).
  - destruct (char_row_spec _ _ _ Hl) as (H1 & H2 & H3). cbn [char_rows]. rewrite H1, H2. cbn [bind]. rewrite IH1. split; [reflexivity|now constructor].
Qed.
Lemma scan_to e ls x rest : Forall (fun l => e l = false) ls -> e x = true -> l_scan e 1 0 (ls ++ x :: rest) = (ls ++ [x], true, rest).
Proof.
  intros H Hx. induction H as [|l ls Hl _ IH]; cbn [app l_scan].
  - rewrite Hx. reflexivity.
  - rewrite Hl. rewrite IH. reflexivity.
Qed.
Lemma dset_tab q ms o c : dset key_eqb (qstate q ms ++ tab o) (kstr "char_table") c = qstate q ms ++ tab (Some c).
Proof. unfold qstate. destruct ms as [|m ms], o as [r|]; reflexivity. Qed.
Lemma char_loop tb rows : char_lines tb rows -> Forall entries rows /\ forall fuel q ms o accum more, length (tb ++ more) <= fuel ->
  exists fuel', length more <= fuel' /\ phonon_loop fuel (qstate q ms ++ tab o) accum (tb ++ more) = phonon_loop fuel' (qstate q ms ++ tab (Some rows)) accum more.
Proof.
  intros [h hs x ls rows' rest e Hh Hls Hr Hn He]. destruct Hh as [a g b l w1 w2 w3 w4 hs' Hu El Hg Hc].
  destruct (char_rows_spec hs' ls rows' (rest ++ [e]) Hls Hr) as [R1 R2]. split; [exact R2|]. intros fuel q ms o accum more Hfuel. cbn [app length] in Hfuel |- *.
  destruct fuel as [|fuel]; [lia|]. exists fuel. split; [rewrite app_length in Hfuel; lia|]. cbn [phonon_loop]. rewrite (other_header _ Hu), (other_mode _ Hu).
  assert (T : re_test REP_MUL_RE l = true).
  { apply somewhere_iff; [reflexivity|reflexivity|]. exists a, (text_of "Rep" ++ g ++ text_of "Mul"), b. split; [now rewrite El, <- !app_assoc|].
    unfold REP_MUL_RE. cbn [RSeqs]. apply lang_seq. exists (text_of "Rep"), (g ++ text_of "Mul"). split; [reflexivity|]. split; [now apply lang_lit|]. apply lang_seq. exists g, (text_of "Mul").
    split; [reflexivity|]. split; [|now apply lang_lit]. apply gap_iff in Hg as [Hg Hg0]. now apply lang_plus. }
  unfold l_from_re. rewrite T. cbn [negb].
  replace (x :: (ls ++ rest ++ [e]) ++ more) with ((x :: ls ++ rest) ++ e :: more) by (cbn [app]; rewrite <- !app_assoc; reflexivity).
  rewrite scan_to; [|eapply Forall_impl; [|exact Hn]; intros y Hy; cbv beta in Hy |- *; destruct (re_test CHAR_END_RE y) eqn:E; [apply end_iff in E; contradiction|reflexivity]|now apply end_iff].
  cbn [orb bind]. unfold l_bool. cbn [existsb].
  assert (N : isempty (strip l) = false).
  { destruct (isempty (strip l)) eqn:E; [|reflexivity]. apply TextParsersFacts.strip_empty in E. rewrite El in E. apply Forall_app in E as [_ E]. inversion E as [|? ? B _]. apply blank_iff in B. discriminate B. }
  rewrite N. cbn [negb orb]. unfold char_table. cbn [app]. rewrite (split_cut _ _ Hc). cbn [skipn]. rewrite <- app_assoc, R1. cbn [bind]. rewrite dset_tab. reflexivity.
Qed.
(** The lines after a header up to the next. *)
Lemma modes_loop ls ms : laid mode_line not_phonon ls ms -> forall fuel q ms0 accum more, length (ls ++ more) <= fuel ->
  exists fuel', length more <= fuel' /\ phonon_loop fuel (qstate q ms0) accum (ls ++ more) = phonon_loop fuel' (qstate q (ms0 ++ ms)) accum more.
Proof.
  induction 1 as [|l m ls ms Hl _ IH|l ls ms Hl _ IH]; intros fuel q ms0 accum more Hfuel; cbn [app length] in Hfuel |- *.
  - exists fuel. rewrite app_nil_r. auto.
  - destruct fuel as [|fuel]; [lia|]. cbn [phonon_loop]. rewrite (mode_no_header _ _ Hl).
    destruct (mode_match _ _ Hl) as (x & Ex & Eg). rewrite Ex, Eg, stack_mode. cbn [bind].
    destruct (IH fuel q (ms0 ++ [m]) accum more ltac:(lia)) as (fuel' & H1 & H2). exists fuel'. rewrite H2, <- app_assoc. auto.
  - destruct fuel as [|fuel]; [lia|]. cbn [phonon_loop]. rewrite (other_header _ (proj1 Hl)), (other_mode _ (proj1 Hl)).
    unfold l_from_re. rewrite (other_rep _ Hl). cbn [negb bind l_bool existsb]. apply IH. lia.
Qed.
Lemma qpt_ok l q : qpt_line l q -> q <> [] /\ Forall num_wf q /\ all_fit q.
Proof.
  intros [a g1 g2 ds g3 t g4 w g5 r q' Ha Hg1 Hg2 Hds Hg3 Ht Hl Hf Hg4 Hw Hg5]. split; [intros ->; discriminate|].
  split; [|exact Hf]. apply Forall_wf, (CellFacts.columns_ok _ _ Ht).
Qed.
Lemma laid_Forall {A} (row : str -> A -> Prop) (other : str -> Prop) (P : A -> Prop) ls rs :
  (forall l a, row l a -> P a) -> laid row other ls rs -> Forall P rs.
Proof. intros H. induction 1; [constructor|constructor; eauto|assumption]. Qed.
Lemma phonon_tail ls qs : phonon_lines ls qs -> forall fuel q ms o done, length ls <= fuel ->
  q <> [] -> Forall num_wf q -> all_fit q -> Forall mode_ok ms -> Forall entries (tab_rows o) ->
  phonon_loop fuel (qstate q ms ++ tab o) (map qpoint done) ls = Ok (map qpoint (done ++ (q, ms, tab_rows o) :: qs)).
Proof.
  induction 1 as [|l ls qs Hl _ IH|l q' ls ms' more qs Hl Hls _ IH|l q' ls ms' tb rows more qs Hl Hls Ht _ IH]; intros fuel q ms o done Hfuel Hq Hw Hf Hm Ho.
  - destruct fuel; cbn [phonon_loop]; now rewrite store_new.
  - cbn [length] in Hfuel. destruct fuel as [|fuel]; [lia|]. cbn [phonon_loop]. rewrite (other_header _ (proj1 Hl)), (other_mode _ (proj1 Hl)).
    unfold l_from_re. rewrite (other_rep _ Hl). cbn [negb bind l_bool existsb]. apply IH; auto. lia.
  - cbn [length] in Hfuel. destruct fuel as [|fuel]; [lia|]. cbn [phonon_loop].
    destruct (qpt_match _ _ Hl) as (x & Ex & Eg). rewrite Ex, Eg, store_new by assumption. cbn [bind].
    rewrite map_map. change [(kstr "qpt", map (fun n => VStr (write_num n)) q')] with (qstate q' []).
    destruct (modes_loop _ _ Hls fuel q' [] (map qpoint (done ++ [(q, ms, tab_rows o)])) more ltac:(lia)) as (fuel' & H1 & ->).
    destruct (qpt_ok _ _ Hl) as (Hq' & Hw' & Hf'). specialize (IH fuel' q' ms' None (done ++ [(q, ms, tab_rows o)])). cbn [tab tab_rows] in IH. rewrite app_nil_r in IH. cbn [app]. rewrite IH; auto.
    + now rewrite <- app_assoc.
    + apply (laid_Forall _ _ _ _ _ mode_line_ok Hls).
  - cbn [length] in Hfuel. destruct fuel as [|fuel]; [lia|]. cbn [phonon_loop].
    destruct (qpt_match _ _ Hl) as (x & Ex & Eg). rewrite Ex, Eg, store_new by assumption. cbn [bind].
    rewrite map_map. change [(kstr "qpt", map (fun n => VStr (write_num n)) q')] with (qstate q' []).
    destruct (modes_loop _ _ Hls fuel q' [] (map qpoint (done ++ [(q, ms, tab_rows o)])) (tb ++ more) ltac:(lia)) as (fuel' & H1 & ->).
    destruct (char_loop _ _ Ht) as [He Hc]. destruct (Hc fuel' q' ms' None (map qpoint (done ++ [(q, ms, tab_rows o)])) more H1) as (fuel2 & H2 & E2).
    cbn [tab] in E2. rewrite app_nil_r in E2. cbn [app]. rewrite E2.
    destruct (qpt_ok _ _ Hl) as (Hq' & Hw' & Hf'). rewrite (IH fuel2 q' ms' (Some rows)); auto.
    + now rewrite <- app_assoc.
    + apply (laid_Forall _ _ _ _ _ mode_line_ok Hls).
Qed.
Theorem phonon_block ls qs : phonon_lines ls qs -> process_phonon ls = Ok (map qpoint qs).
Proof.
  unfold process_phonon. enough (G : forall fuel, length ls <= fuel -> phonon_lines ls qs -> phonon_loop fuel [] [] ls = Ok (map qpoint qs)) by (intros; now apply G).
  intros fuel Hfuel H. revert fuel Hfuel. induction H as [|l ls qs Hl _ IH|l q' ls ms' more qs Hl Hls Hmore _|l q' ls ms' tb rows more qs Hl Hls Ht Hmore _]; intros fuel Hfuel.
  - destruct fuel; reflexivity.
  - cbn [length] in Hfuel. destruct fuel as [|fuel]; [lia|]. cbn [phonon_loop]. rewrite (other_header _ (proj1 Hl)), (other_mode _ (proj1 Hl)).
    unfold l_from_re. rewrite (other_rep _ Hl). cbn [negb bind l_bool existsb]. apply IH. lia.
  - cbn [length] in Hfuel. destruct fuel as [|fuel]; [lia|]. cbn [phonon_loop].
    destruct (qpt_match _ _ Hl) as (x & Ex & Eg). rewrite Ex, Eg. cbn [store_qdata qpt_of dget isempty negb andb bind].
    rewrite map_map. change [(kstr "qpt", map (fun n => VStr (write_num n)) q')] with (qstate q' []).
    destruct (modes_loop _ _ Hls fuel q' [] [] more ltac:(lia)) as (fuel' & H1 & ->).
    destruct (qpt_ok _ _ Hl) as (Hq' & Hw' & Hf'). rewrite <- (app_nil_r (qstate q' ([] ++ ms'))).
    apply (phonon_tail _ _ Hmore fuel' q' ms' None []); auto.
    apply (laid_Forall _ _ _ _ _ mode_line_ok Hls). constructor.
  - cbn [length] in Hfuel. destruct fuel as [|fuel]; [lia|]. cbn [phonon_loop].
    destruct (qpt_match _ _ Hl) as (x & Ex & Eg). rewrite Ex, Eg. cbn [store_qdata qpt_of dget isempty negb andb bind].
    rewrite map_map. change [(kstr "qpt", map (fun n => VStr (write_num n)) q')] with (qstate q' []).
    destruct (modes_loop _ _ Hls fuel q' [] [] (tb ++ more) ltac:(lia)) as (fuel' & H1 & ->).
    destruct (qpt_ok _ _ Hl) as (Hq' & Hw' & Hf'). destruct (char_loop _ _ Ht) as [He Hc].
    destruct (Hc fuel' q' ms' None [] more H1) as (fuel2 & H2 & E2). cbn [tab] in E2. rewrite app_nil_r in E2. cbn [app]. rewrite E2.
    apply (phonon_tail _ _ Hmore fuel2 q' ms' (Some rows) []); auto.
    apply (laid_Forall _ _ _ _ _ mode_line_ok Hls).
Qed.
