(** Facts about whole .md/.geom files. *)
From Verif Require Import PyBase PyFacts PyVal Regex RegexFacts RegexComplete SpecLine SpecTable SpecStr StrUtilFacts SpecText SpecBands SpecDict NumProps
  FileWrapper FileWrapperObs FileWrapperFacts Stream StreamFacts TextParsersFacts SpecMd MdGeom MdFacts.
Local Open Scope list_scope.
Local Open Scope nat_scope.

(** ** Blank lines mean nothing to the frame parser *)
Lemma foldM_skip {A S} (f : S -> A -> result S) l : forall st, Forall (fun x => forall st, f st x = Ok st) l -> foldM f l st = Ok st.
Proof. induction l as [|x l IH]; intros st H; [reflexivity|]. inversion H; subst. cbn [foldM]. rewrite H2. now apply IH. Qed.
Lemma foldM_app {A S} (f : S -> A -> result S) : forall l l' st, foldM f (l ++ l') st = (st' <- foldM f l st ;; foldM f l' st').
Proof. induction l as [|x l IH]; intros l' st; [reflexivity|]. cbn [app foldM]. destruct (f st x); [apply IH|reflexivity]. Qed.
Lemma frame_line_blank l st : blanks l -> frame_line st l = Ok st.
Proof. intros H. apply strip_empty in H. unfold frame_line. now rewrite H. Qed.
Lemma frame_blanks a fr b : Forall blanks a -> Forall blanks b -> parse_md_geom_frame (a ++ fr ++ b) = parse_md_geom_frame fr.
Proof.
  intros Ha Hb. unfold parse_md_geom_frame. rewrite foldM_app.
  assert (forall l, Forall blanks l -> Forall (fun x => forall st, frame_line st x = Ok st) l) as G.
  { intros l H. eapply Forall_impl; [|exact H]. intros. now apply frame_line_blank. }
  rewrite (foldM_skip _ a) by auto. cbn [bind]. rewrite foldM_app. destruct (foldM frame_line fr _) as [st|]; [|reflexivity]. cbn [bind].
  now rewrite (foldM_skip _ b) by auto.
Qed.

(** ** The pattern "^$" *)
Lemma empty_line_eq : empty_line = [newline].
Proof. reflexivity. Qed.
Lemma nothing_iff l : re_test NOTHING_RE l = true <-> l = [] \/ l = empty_line.
Proof.
  rewrite search_test_iff by reflexivity. split.
  - intros (a & b & -> & p' & s' & c' & H). cbn in H. destruct H as (p1 & s1 & c1 & (P & _ & <- & _) & (E & _)).
    assert (a = []) as ->. { destruct a as [|x a] using rev_ind; [reflexivity|]. rewrite pa_snoc in P. discriminate. }
    cbn. destruct b as [|c [|]]; [now left| |discriminate]. right. rewrite empty_line_eq. cbn in E. apply Ascii.eqb_eq in E. now subst.
  - intros [->| ->]; [exists [], []|exists [], empty_line]; (split; [reflexivity|]); eexists _, _, _; cbn; repeat eexists.
Qed.
Lemma nothing_false l : l <> [] /\ l <> empty_line -> re_test NOTHING_RE l = false.
Proof. intros [A B]. apply not_true_iff_false. rewrite nothing_iff. tauto. Qed.
Lemma count_none p (ls : list str) : Forall (fun l => p l = false) ls -> count p ls = 0.
Proof. unfold count. induction 1 as [|l ls H _ IH]; [reflexivity|]. cbn. now rewrite H. Qed.
Lemma unbroken_count fr : unbroken fr -> count (re_test NOTHING_RE) fr = 0.
Proof. intros H. apply count_none. eapply Forall_impl; [|exact H]. intros. now apply nothing_false. Qed.

(** ** Blank and other blocks *)
Lemma l_bool_blank ls : Forall blanks ls -> l_bool ls = false.
Proof. induction 1 as [|l ls H _ IH]; [reflexivity|]. cbn. apply strip_empty in H. now rewrite H. Qed.
Lemma l_bool_iff ls : l_bool ls = true <-> ~ Forall blanks ls.
Proof.
  split.
  - intros H C. rewrite l_bool_blank in H by exact C. discriminate.
  - intros H. destruct (l_bool ls) eqn:E; [reflexivity|]. exfalso. apply H. clear H. induction ls as [|l ls IH]; [constructor|].
    cbn in E. apply orb_false_iff in E as [A B]. constructor; [|now apply IH]. apply strip_empty. now apply negb_false_iff.
Qed.
Lemma frame_start_blank fr : frame_start fr -> ~ Forall blanks fr.
Proof. intros (l & ls & -> & H & _) C. inversion C; subst. contradiction. Qed.

(** ** Going back one line *)
Lemma back_one s : src_wf s -> src_rest s <> [] ->
  fst (src_rewind (snd (src_next s))) = Ok tt /\ src_rest (snd (src_rewind (snd (src_next s)))) = src_rest s.
Proof.
  destruct s as [f|b]; cbn [src_wf src_rest src_next src_rewind].
  - intros _ H. unfold fw_next. unfold readline. set (t := skipn (fw_off f) (fw_content f)) in *.
    assert (T : t <> []) by (intros E; apply H; now rewrite E).
    pose proof (take_line_nonempty t T) as N. destruct (fst (take_line t)) as [|x l] eqn:E; [congruence|]. cbn [isempty snd src_rewind].
    unfold fw_rewind. cbn [fw_off fw_pos]. destruct (Nat.eqb_spec (fw_off f + length (x :: l)) (fw_off f)) as [C|_]; [cbn in C; lia|].
    cbn [fst snd src_rest fw_off fw_content]. auto.
  - intros Hb H. unfold b_next. destruct (Z.leb_spec (Z.of_nat (length (b_data b))) (b_i b + 1)) as [L|L].
    + exfalso. apply H. apply skipn_all2. lia.
    + destruct (nth_error (b_data b) (Z.to_nat (b_i b + 1))) as [l|] eqn:E; [|apply nth_error_None in E; lia].
      cbn [snd src_rewind]. unfold b_rewind. cbn [b_i b_data]. destruct (Z.ltb_spec (b_i b + 1) 0); [lia|]. cbn [fst snd src_rest b_i b_data].
      split; [reflexivity|]. f_equal. lia.
Qed.
(** After a failed [next] too. *)
Lemma back_end s : src_wf s -> src_rest s = [] ->
  fst (src_rewind (snd (src_next s))) = Ok tt /\ src_rest (snd (src_rewind (snd (src_next s)))) = [].
Proof.
  destruct s as [f|b]; cbn [src_wf src_rest src_next src_rewind].
  - intros _ H. unfold fw_next, readline. set (t := skipn (fw_off f) (fw_content f)) in *.
    assert (T : t = []). { rewrite <- (lines_concat t), H. reflexivity. }
    rewrite T. cbn [take_line fst isempty snd src_rewind length]. unfold fw_rewind. cbn [fw_off fw_pos].
    rewrite Nat.add_0_r, Nat.eqb_refl. cbn [fst snd src_rest fw_off fw_content]. fold t. now rewrite T.
  - intros Hb H. assert (L : length (b_data b) <= Z.to_nat (b_i b + 1)).
    { pose proof (f_equal (@length _) H) as E. rewrite skipn_length in E. cbn in E. lia. }
    unfold b_next. destruct (Z.leb_spec (Z.of_nat (length (b_data b))) (b_i b + 1)) as [_|C]; [|lia].
    cbn [snd src_rewind]. unfold b_rewind. cbn [b_i b_data]. destruct (Z.ltb_spec (b_i b + 1) 0); [lia|]. cbn [fst snd src_rest b_i b_data].
    split; [reflexivity|]. apply skipn_all2. lia.
Qed.

(** ** The header *)
Lemma first_text_ok bs l tl : Forall blanks bs -> ~ blanks l -> forall fuel line s,
  src_wf s -> length (src_rest s) < fuel -> src_rest s = bs ++ l :: tl ->
  exists s', first_text fuel line s = (l, s') /\ src_wf s' /\ src_rest s' = tl /\
    fst (src_rewind s') = Ok tt /\ src_rest (snd (src_rewind s')) = l :: tl.
Proof.
  intros Hb Hl. induction Hb as [|b bs Hb _ IH]; intros fuel line s Hwf Hf E; (destruct fuel as [|fuel]; [lia|]); cbn [first_text];
    destruct (src_next_ok s Hwf) as [Hwf' Hn]; rewrite E in Hn; cbn [app] in *.
  - destruct (back_one s Hwf) as [B1 B2]; [rewrite E; discriminate|]. destruct (src_next s) as [r s1]. cbn [fst snd] in *.
    destruct Hn as (-> & Hr & _). destruct (isempty (strip l)) eqn:S; [apply strip_empty in S; contradiction|].
    exists s1. rewrite B2. auto.
  - destruct (src_next s) as [r s1]. cbn [fst snd] in *. destruct Hn as (-> & Hr & _).
    apply strip_empty in Hb. rewrite Hb. apply IH; auto. rewrite Hr. rewrite E in Hf. cbn in Hf. lia.
Qed.
Lemma first_text_end bs : Forall blanks bs -> forall fuel line s,
  src_wf s -> length (src_rest s) < fuel -> src_rest s = bs -> blanks line ->
  exists line' s', first_text fuel line s = (line', s') /\ blanks line' /\ src_wf s' /\ src_rest s' = [] /\
    fst (src_rewind s') = Ok tt /\ src_rest (snd (src_rewind s')) = [].
Proof.
  intros Hb. induction Hb as [|b bs Hb _ IH]; intros fuel line s Hwf Hf E Hl; (destruct fuel as [|fuel]; [lia|]); cbn [first_text];
    destruct (src_next_ok s Hwf) as [Hwf' Hn]; rewrite E in Hn.
  - destruct (back_end s Hwf E) as [B1 B2]. destruct (src_next s) as [r s1]. cbn [fst snd] in *. destruct Hn as [-> Hr].
    exists line, s1. auto 7.
  - destruct (src_next s) as [r s1]. cbn [fst snd] in *. destruct Hn as (-> & Hr & _).
    pose proof Hb as Hb'. apply strip_empty in Hb'. rewrite Hb'. apply IH; auto. rewrite Hr. rewrite E in Hf. cbn in Hf. lia.
Qed.
Lemma blank_no_header l : blanks l -> contains ($"BEGIN header") l = false.
Proof.
  intros H. apply not_true_iff_false. rewrite contains_iff. intros (a & b & ->). apply blanks_iff in H.
  rewrite !forallb_app in H. apply andb_true_iff in H as [_ H]. apply andb_true_iff in H as [H _]. discriminate.
Qed.
Lemma no_header_false l : ~ mentions "BEGIN header" l -> contains ($"BEGIN header") l = false.
Proof. rewrite mentions_iff. apply not_true_iff_false. Qed.

(** No header: the source is as it was. *)
Lemma header_none s bs body : src_wf s -> src_rest s = bs ++ body -> Forall blanks bs -> frame_start body ->
  exists s', parse_header s = (Ok [], s') /\ src_wf s' /\ src_rest s' = body.
Proof.
  intros Hwf E Hb (l & ls & -> & Hl & Hm). unfold parse_header.
  destruct (first_text_ok bs l ls Hb Hl (src_fuel s) [] s Hwf (src_fuel_ok s Hwf) E) as (s1 & -> & Hwf1 & _ & B1 & B2).
  unfold from_re. rewrite (no_header_false l Hm). cbn [negb b_bool new_block b_data existsb].
  pose proof (src_rewind_wf s1 Hwf1). destruct (src_rewind s1) as [r s4]. cbn [fst snd] in *. subst r. exists s4. cbn. auto.
Qed.
Lemma header_blank s : src_wf s -> Forall blanks (src_rest s) ->
  exists s', parse_header s = (Ok [], s') /\ src_wf s' /\ src_rest s' = [].
Proof.
  intros Hwf Hb. unfold parse_header.
  destruct (first_text_end _ Hb (src_fuel s) [] s Hwf (src_fuel_ok s Hwf) eq_refl) as (l & s1 & -> & Hl & Hwf1 & _ & B1 & B2); [constructor|].
  unfold from_re. rewrite (blank_no_header l Hl). cbn [negb b_bool new_block b_data existsb].
  pose proof (src_rewind_wf s1 Hwf1). destruct (src_rewind s1) as [r s4]. cbn [fst snd] in *. subst r. exists s4. cbn. auto.
Qed.
(** A header: its comment; then one blank line is skipped. *)
Lemma header_some s ban rest c : src_wf s -> src_rest s = ban ++ rest -> md_banner ban c ->
  exists s', src_wf s' /\ match rest with
    | [] => parse_header s = (Err StopIteration, s')
    | x :: xs => parse_header s = (Ok c, s') /\ (blanks x -> src_rest s' = xs) /\ (~ blanks x -> src_rest s' = rest)
    end.
Proof.
  intros Hwf E Hban. inversion Hban as [bs l mid l' c0 Hb Hl Hm Hmid Hend Hc]; subst.
  rewrite <- app_assoc in E. cbn [app] in E. rewrite <- app_assoc in E. cbn [app] in E. unfold parse_header.
  destruct (first_text_ok bs l _ Hb Hl (src_fuel s) [] s Hwf (src_fuel_ok s Hwf) E) as (s1 & -> & Hwf1 & R1 & _).
  assert (Cut : cut (contains ($"END header")) 1 (src_rest s1) = Some (mid ++ [l'], rest)).
  { apply cut_some; [lia|]. exists mid, l'. rewrite R1. split; [reflexivity|]. split; [reflexivity|]. apply mentions_iff in Hend. split; [exact Hend|].
    f_equal. apply count_none. eapply Forall_impl; [|exact Hmid]. intros x Hx. cbn in Hx. rewrite mentions_iff in Hx. now apply not_true_iff_false. }
  assert (St : contains ($"BEGIN header") l = true) by now apply mentions_iff.
  destruct (from_re_ok l s1 (contains ($"BEGIN header")) (contains ($"END header")) 1 false Hwf1 (le_n 1) St) as (s2 & Hwf2 & F).
  rewrite Cut in F. destruct F as [-> R2].
  assert (Bb : b_bool (new_block (Some s1) (l :: mid ++ [l'])) = true).
  { cbn. apply orb_true_iff. left. apply negb_true_iff, not_true_iff_false. now rewrite strip_empty. }
  rewrite Bb.
  assert (Cm : strip (b_str (b_remove_bounds 1 1 (new_block (Some s1) (l :: mid ++ [l'])))) = c).
  { unfold b_str, b_remove_bounds, new_block. cbn [b_data]. rewrite join_joined. apply trimmed_strip.
    replace (length (l :: mid ++ [l']) - 1) with (length (l :: mid)) by (cbn; rewrite app_length; cbn; lia).
    change (l :: mid ++ [l']) with ((l :: mid) ++ [l']). rewrite firstn_app, firstn_all, Nat.sub_diag. cbn [firstn skipn app]. rewrite app_nil_r. exact Hc. }
  rewrite Cm. destruct (src_next_ok s2 Hwf2) as [Hwf3 Hn]. rewrite R2 in Hn. destruct rest as [|x xs].
  - destruct (src_next s2) as [r s3]. cbn [fst snd] in *. destruct Hn as [-> _]. exists s3. auto.
  - destruct (back_one s2 Hwf2) as [B1 B2]; [rewrite R2; discriminate|]. rewrite R2 in B2.
    destruct (src_next s2) as [r s3]. cbn [fst snd] in *. destruct Hn as (-> & R3 & _).
    destruct (isempty (strip x)) eqn:Sx.
    + apply strip_empty in Sx. exists s3. split; [exact Hwf3|]. split; [reflexivity|]. split; [auto|contradiction].
    + pose proof (src_rewind_wf s3 Hwf3). destruct (src_rewind s3) as [r s4]. cbn [fst snd] in *. subst r. exists s4. split; [assumption|].
      split; [reflexivity|]. split; [intros Hx; apply strip_empty in Hx; congruence|auto].
Qed.
Theorem header_ok s hdr c body : src_wf s -> md_header hdr c -> src_rest s = hdr ++ body -> frame_start body ->
  exists s', parse_header s = (Ok c, s') /\ src_wf s' /\ src_rest s' = body.
Proof.
  intros Hwf [bs Hb|ban sep c0 Hban Hs] E Hf; [now apply header_none with bs|].
  rewrite <- app_assoc in E. destruct (header_some s ban (sep ++ body) c0) as (s' & Hwf' & G); auto.
  exists s'. pose proof Hf as (x & xs & -> & Hx & _). destruct Hs as [->|(b & -> & Hbl)]; cbn [app] in G; destruct G as (-> & G1 & G2); auto.
Qed.

(** ** Frames *)
(** One frame with its empty line. *)
Lemma frame_step fuel s fr ls steps : src_wf s -> src_rest s = fr ++ empty_line :: ls -> frame_start fr -> unbroken fr ->
  exists s', src_wf s' /\ src_rest s' = ls /\
    md_frames (S fuel) s steps = (v <- parse_md_geom_frame fr ;; md_frames fuel s' (steps ++ [v])).
Proof.
  intros Hwf E Hf Hu. cbn [md_frames].
  destruct (from_re_ok [] s (fun _ => true) (re_test NOTHING_RE) 1 true Hwf (le_n 1) eq_refl) as (s' & Hwf' & F); rewrite E in F.
  exists s'. replace (cut (re_test NOTHING_RE) 1 (fr ++ empty_line :: ls)) with (Some (fr ++ [empty_line], ls)) in F.
  2:{ symmetry. apply cut_some; [lia|]. exists fr, empty_line. split; [reflexivity|]. split; [reflexivity|]. split; [reflexivity|].
      f_equal. now apply unbroken_count. }
  destruct F as [-> R']. split; [exact Hwf'|]. split; [exact R'|]. cbn [bind].
  replace (b_bool (new_block (Some s) ([] :: fr ++ [empty_line]))) with true.
  2:{ symmetry. apply l_bool_iff. intros C. inversion C as [|? ? _ C2]; subst. apply Forall_app in C2 as [C2 _]. now apply frame_start_blank in Hf. }
  cbn [new_block b_data]. assert (P : parse_md_geom_frame ([] :: fr ++ [empty_line]) = parse_md_geom_frame fr).
  { apply (frame_blanks [[]] fr [empty_line]); [repeat constructor|]. constructor; [|constructor]. apply blanks_iff. reflexivity. }
  now rewrite P.
Qed.
Lemma frames_ok frames ls : md_body frames ls -> forall fuel s steps, src_wf s -> src_rest s = ls -> length ls < fuel ->
  md_frames fuel s steps = rmap (app steps) (mapM parse_md_geom_frame frames).
Proof.
  intros H. induction H as [bs Hb|fr Hf Hu|fr frs ls Hf Hu _ IH]; intros fuel s steps Hwf E Hfuel; (destruct fuel as [|fuel]; [lia|]);
    cbn [md_frames];
    destruct (from_re_ok [] s (fun _ => true) (re_test NOTHING_RE) 1 true Hwf (le_n 1) eq_refl) as (s' & Hwf' & F); rewrite E in F.
  - assert (G : forall d, Forall blanks d -> b_bool (new_block (Some s) ([] :: d)) = false).
    { intros d Hd. apply l_bool_blank. constructor; [constructor|exact Hd]. }
    destruct (cut (re_test NOTHING_RE) 1 bs) as [[a b]|] eqn:C.
    + destruct F as [-> _]. cbn [bind]. rewrite G; [cbn; now rewrite app_nil_r|].
      apply cut_some in C; [|lia]. destruct C as (pre & l & -> & -> & _). apply Forall_app in Hb as [Hb1 Hb2]. inversion Hb2; subst.
      apply Forall_app. auto.
    + destruct F as [-> _]. cbn [bind]. rewrite G by exact Hb. cbn. now rewrite app_nil_r.
  - replace (cut (re_test NOTHING_RE) 1 fr) with (@None (list str * list str)) in F by (symmetry; apply cut_none; [lia|]; rewrite unbroken_count by exact Hu; lia).
    destruct F as [-> R']. cbn [bind]. replace (b_bool (new_block (Some s) ([] :: fr))) with true.
    2:{ symmetry. apply l_bool_iff. intros C. inversion C; subst. now apply frame_start_blank in Hf. }
    cbn [new_block b_data mapM]. assert (P : parse_md_geom_frame ([] :: fr) = parse_md_geom_frame fr).
    { rewrite <- (app_nil_r fr) at 1. apply (frame_blanks [[]] fr []); repeat constructor. }
    rewrite P. destruct (parse_md_geom_frame fr) as [v|e]; [|reflexivity]. cbn [bind rmap].
    destruct fuel as [|fuel]; [destruct Hf as (l & xs & -> & _); cbn in Hfuel; lia|]. cbn [md_frames].
    destruct (from_re_ok [] s' (fun _ => true) (re_test NOTHING_RE) 1 true Hwf' (le_n 1) eq_refl) as (s2 & _ & F2). rewrite R' in F2. cbn [cut] in F2.
    destruct F2 as [-> _]. reflexivity.
  - clear F s' Hwf'. destruct (frame_step fuel s fr ls steps Hwf E Hf Hu) as (s' & Hwf' & R' & Es). cbn [md_frames] in Es. rewrite Es. cbn [mapM].
    destruct (parse_md_geom_frame fr) as [v|e]; [|reflexivity]. cbn [bind rmap].
    rewrite (IH fuel s' (steps ++ [v]) Hwf' R') by (rewrite app_length in Hfuel; cbn in Hfuel; lia).
    destruct (mapM parse_md_geom_frame frs); cbn; [|reflexivity]. now rewrite <- app_assoc.
Qed.

(** Two empty lines in a row: whatever follows is not read. *)
Lemma frames_drop bs more : Forall blanks bs -> forall frames fuel s steps, src_wf s -> Forall frame_start frames -> Forall unbroken frames ->
  src_rest s = framed frames ++ bs ++ empty_line :: more -> length (src_rest s) < fuel ->
  md_frames fuel s steps = rmap (app steps) (mapM parse_md_geom_frame frames).
Proof.
  intros Hb. induction frames as [|fr frs IH]; intros fuel s steps Hwf Hf Hu E Hfuel; (destruct fuel as [|fuel]; [lia|]).
  - cbn [md_frames]. destruct (from_re_ok [] s (fun _ => true) (re_test NOTHING_RE) 1 true Hwf (le_n 1) eq_refl) as (s' & Hwf' & F). rewrite E in F.
    cbn [framed laid_out map concat app] in F. destruct (cut (re_test NOTHING_RE) 1 (bs ++ empty_line :: more)) as [[a b]|] eqn:C.
    + destruct F as [-> _]. cbn [bind]. replace (b_bool (new_block (Some s) ([] :: a))) with false; [cbn; now rewrite app_nil_r|].
      symmetry. apply l_bool_blank. constructor; [constructor|]. apply cut_some in C; [|lia]. destruct C as (pre & l & -> & C & Hl & Hn).
      apply nothing_iff in Hl. assert (blanks l) by (destruct Hl as [->| ->]; apply blanks_iff; reflexivity).
      apply Forall_app. split; [|auto]. assert (P : exists z, bs = pre ++ z).
      { clear -C Hn Hb. revert bs C Hb. assert (count (re_test NOTHING_RE) pre = 0) as Hn0 by lia. clear Hn. revert Hn0.
        induction pre as [|x pre IH]; intros Hn bs C Hb; [exists bs; reflexivity|]. rewrite count_cons in Hn.
        destruct bs as [|y bs]; cbn [app] in C; injection C as <- C.
        - replace (re_test NOTHING_RE empty_line) with true in Hn by reflexivity. lia.
        - destruct (IH ltac:(lia) bs C) as (z & ->); [now inversion Hb|]. exists z. reflexivity. }
      destruct P as (z & ->). now apply Forall_app in Hb.
    + exfalso. apply cut_none in C; [|lia]. revert C. clear. induction bs as [|x bs IH]; cbn [app]; rewrite count_cons; [|intros; apply IH; lia].
      replace (re_test NOTHING_RE empty_line) with true by reflexivity. cbn. intros X. inversion X as [|? Y]. inversion Y.
  - inversion Hf; inversion Hu; subst. cbn [framed map laid_out concat fst snd] in E. rewrite <- !app_assoc in E. cbn [app] in E.
    destruct (frame_step fuel s fr (framed frs ++ bs ++ empty_line :: more) steps Hwf E) as (s' & Hwf' & R' & Es); auto. rewrite Es. cbn [mapM].
    destruct (parse_md_geom_frame fr) as [v|e]; [|reflexivity]. cbn [bind rmap]. rewrite IH; auto.
    + destruct (mapM parse_md_geom_frame frs); cbn; [|reflexivity]. now rewrite <- app_assoc.
    + rewrite R'. rewrite E, app_length in Hfuel. cbn [length] in Hfuel. unfold framed, laid_out in *. lia.
Qed.

(** ** Whole files *)
Lemma body_start frames ls : md_body frames ls -> frames <> [] -> frame_start ls.
Proof.
  intros [bs Hb|fr Hf Hu|fr frs ls' (l & xs & -> & H) Hu _] H0; [contradiction|exact Hf|]. exists l, (xs ++ empty_line :: ls'). auto.
Qed.
Lemma wrapped frames : frames <> [] ->
  (steps <- rmap (app []) (mapM parse_md_geom_frame frames) ;; if isempty steps then Err ValueError else Ok (VList steps)) =
  rmap VList (mapM parse_md_geom_frame frames).
Proof.
  intros H. destruct frames as [|fr frs]; [contradiction|]. cbn [mapM]. destruct (parse_md_geom_frame fr); [|reflexivity].
  cbn. destruct (mapM parse_md_geom_frame frs); reflexivity.
Qed.
Theorem md_file s hdr c frames ls : reachable s -> delivers s (hdr ++ ls) -> md_header hdr c -> md_body frames ls -> frames <> [] ->
  parse_md_geom_file s = rmap VList (mapM parse_md_geom_frame frames) /\ fst (parse_header s) = Ok c.
Proof.
  intros R D Hh Hb Hn. apply reachable_wf in R. apply delivers_iff in D; [|exact R].
  destruct (header_ok s hdr c ls R Hh D (body_start _ _ Hb Hn)) as (s' & Eh & Hwf & Er). unfold parse_md_geom_file. rewrite Eh. cbn [bind].
  rewrite (frames_ok frames ls Hb _ s' [] Hwf Er) by (rewrite <- Er; now apply src_fuel_ok). split; [|reflexivity]. now apply wrapped.
Qed.
Theorem md_file_drop s hdr c frames bs more : reachable s -> delivers s (hdr ++ framed frames ++ bs ++ empty_line :: more) ->
  md_header hdr c -> Forall frame_start frames -> Forall unbroken frames -> Forall blanks bs -> frames <> [] ->
  parse_md_geom_file s = rmap VList (mapM parse_md_geom_frame frames).
Proof.
  intros R D Hh Hf Hu Hb Hn. apply reachable_wf in R. apply delivers_iff in D; [|exact R].
  destruct (header_ok s hdr c _ R Hh D) as (s' & Eh & Hwf & Er).
  { destruct frames as [|fr frs]; [contradiction|]. inversion Hf as [|? ? (l & xs & -> & H) _]; subst. eexists _, _. split; [reflexivity|exact H]. }
  unfold parse_md_geom_file. rewrite Eh. cbn [bind].
  rewrite (frames_drop bs more Hb frames _ s' []); auto; [now apply wrapped|now apply src_fuel_ok].
Qed.
Lemma frames_none s fuel steps : src_wf s -> Forall blanks (src_rest s) -> length (src_rest s) < fuel -> md_frames fuel s steps = Ok steps.
Proof.
  intros Hwf Hb Hl. rewrite (frames_ok [] (src_rest s) (mb_end _ Hb) fuel s steps Hwf eq_refl Hl). cbn. now rewrite app_nil_r.
Qed.
Theorem md_file_none s : reachable s ->
  (forall ls, delivers s ls -> Forall blanks ls -> parse_md_geom_file s = Err ValueError) /\
  (forall ban c, md_banner ban c -> delivers s ban -> parse_md_geom_file s = Err StopIteration) /\
  (forall ban c bs, md_banner ban c -> delivers s (ban ++ bs) -> Forall blanks bs -> bs <> [] -> parse_md_geom_file s = Err ValueError).
Proof.
  intros R. apply reachable_wf in R. split; [|split].
  - intros ls D Hb. apply delivers_iff in D; [|exact R]. subst ls.
    destruct (header_blank s R Hb) as (s' & Eh & Hwf & Er). unfold parse_md_geom_file. rewrite Eh. cbn [bind].
    rewrite frames_none; auto; [rewrite Er; constructor|now apply src_fuel_ok].
  - intros ban c Hban D. apply delivers_iff in D; [|exact R].
    destruct (header_some s ban [] c) as (s' & Hwf' & G); auto; [now rewrite app_nil_r|].
    unfold parse_md_geom_file. rewrite G. reflexivity.
  - intros ban c bs Hban D Hb Hne. apply delivers_iff in D; [|exact R].
    destruct (header_some s ban bs c) as (s' & Hwf' & G); auto. destruct bs as [|x xs]; [contradiction|].
    destruct G as (Eh & G & _). inversion Hb; subst. unfold parse_md_geom_file. rewrite Eh. cbn [bind].
    rewrite frames_none; auto; [rewrite G; auto|now apply src_fuel_ok].
Qed.
