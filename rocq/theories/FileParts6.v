(** Facts about .phonon files. *)
From Coq Require Import QArith Qreduction.
From Verif Require Import PyBase PyFacts PyVal Regex RegexFacts RegexComplete CastepRes NumSpec NumFacts NumProps NumVal
  StrUtil SpecStr StrUtilFacts SpecLine SpecType TypeConv TypeConvFacts IntStr DictUtil SpecDict DictFacts DictSmall Stream StreamFacts
  SpecTable ColumnFacts TextParsers TextParsersFacts Header HeaderFacts SpecMd MdGeom MdFacts SpecBands BandsFacts NeedFacts SpecCastep CastepBlocks CastepFacts
  SpecFiles SpecFiles2 SpecFiles3 SpecFiles5 SpecFiles6 TextFiles FileFacts FileParts FileParts2 FileParts3 FileParts4 FileParts5.
Local Open Scope list_scope.
Local Open Scope nat_scope.

(** ** Modes *)
Lemma cols_in a b l t : in_columns a b l t -> cols a b l = t.
Proof.
  intros [x t' y Hx Ht|x t' Hx Ht|l' Hl]; unfold cols.
  - rewrite skipn_app, skipn_all2, Hx, Nat.sub_diag by lia. cbn [skipn app]. rewrite firstn_app, Ht, Nat.sub_diag, firstn_all2 by lia. cbn. apply app_nil_r.
  - rewrite skipn_app, skipn_all2, Hx, Nat.sub_diag by lia. cbn [skipn app]. apply firstn_all2. lia.
  - rewrite skipn_all2 by lia. now rewrite firstn_nil.
Qed.
Lemma chr_in_app c a b : chr_in c (a ++ b) = chr_in c a || chr_in c b.
Proof. unfold chr_in. apply existsb_app. Qed.
Lemma builtin_pad a n b : blanks a -> blanks b -> num_wf n -> fits (num_value n) -> TextFiles.float_of (a ++ write_num n ++ b) = Ok (SpecCastep.float_of n).
Proof.
  intros Ha Hb Hn Hf. apply blanks_iff in Ha, Hb. unfold TextFiles.float_of. pose proof (builtin_num n Hn Hf) as E. unfold py_float_builtin in E |- *.
  rewrite strip_strip_pad, py_fraction_pad by (auto using write_num_nospace).
  assert (S : forall w, forallb is_space w = true -> chr_in "/" w = false).
  { intros w Hw. apply chr_in_false, forallb_forall. intros c Hc. rewrite forallb_forall in Hw. specialize (Hw c Hc). apply negb_true_iff, Ascii.eqb_neq. intros <-. discriminate. }
  rewrite !chr_in_app, (S a Ha), (S b Hb). cbn [orb]. rewrite orb_false_r, E. reflexivity.
Qed.
Lemma field_none t : field t None -> isempty (strip t) = true.
Proof. intros H. inversion H. now apply strip_empty. Qed.
Lemma field_some t n : field t (Some n) -> isempty (strip t) = false /\ TextFiles.float_of t = Ok (SpecCastep.float_of n).
Proof.
  intros H. inversion H as [|g n' g' Hg Hg' Hn Hf]; subst. split; [|now apply builtin_pad]. apply blanks_iff in Hg, Hg'. rewrite strip_pad by (auto using write_num_nospace).
  destruct (write_num n) eqn:E; [|reflexivity]. exfalso. rewrite write_num_split in E. pose proof (wf_mant n Hn) as Hm. destruct (mant_cons _ _ Hm) as (x & t & Em & _).
  rewrite Em in E. destruct (write_sign (n_sign n)); discriminate.
Qed.
Lemma field_adds d0 es d t o k : absent d0 (KStr (text_of k)) -> gathered d0 es d -> field t o ->
  exists d', (if isempty (strip t) then Ok d else v <- TextFiles.float_of t ;; append_to d (kstr k) v) = Ok d' /\ gathered d0 (es ++ optional k o) d'.
Proof.
  intros Ha G Hf. destruct o as [n|].
  - destruct (field_some _ _ Hf) as [-> ->]. cbn [bind optional]. exact (gathered_step _ _ _ _ _ Ha G).
  - rewrite (field_none _ Hf). exists d. cbn. now rewrite app_nil_r.
Qed.
Lemma mode_spec d0 es d l m : unnamed ["eigenvalues"; "ir_intensity"; "raman_intensity"]%string d0 -> gathered d0 es d -> mode_row l m ->
  exists d', phonon_mode d l = Ok d' /\ gathered d0 (es ++ mode_entries m) d'.
Proof.
  intros Hu G [t1 t2 t3 C1 F1 C2 F2 C3 F3]. unfold phonon_mode. rewrite (cols_in _ _ _ _ C1), (cols_in _ _ _ _ C2), (cols_in _ _ _ _ C3).
  destruct (field_some _ _ F1) as [_ ->]. cbn [bind].
  destruct (gathered_step d0 es d (kstr "eigenvalues") (SpecCastep.float_of (md_value m)) (Hu "eigenvalues"%string ltac:(now left)) G) as (d1 & -> & G1). cbn [bind].
  destruct (field_adds _ _ _ _ _ "ir_intensity" (Hu "ir_intensity"%string ltac:(right; now left)) G1 F2) as (d2 & -> & G2). cbn [bind].
  destruct (field_adds _ _ _ _ _ "raman_intensity" (Hu "raman_intensity"%string ltac:(right; right; now left)) G2 F3) as (d3 & -> & G3).
  exists d3. split; [reflexivity|]. unfold mode_entries. now rewrite <- !app_assoc in G3.
Qed.
Lemma modes_spec d0 body ms : unnamed ["eigenvalues"; "ir_intensity"; "raman_intensity"]%string d0 -> Forall2 mode_row body ms -> forall es d, gathered d0 es d ->
  exists d', foldM phonon_mode body d = Ok d' /\ gathered d0 (es ++ flat_map mode_entries ms) d'.
Proof.
  intros Hu. induction 1 as [|l m body ms Hl _ IH]; intros es d G; cbn [foldM flat_map]; [exists d; now rewrite app_nil_r|].
  destruct (mode_spec _ _ _ _ _ Hu G Hl) as (d1 & -> & G1). cbn [bind]. destruct (IH _ _ G1) as (d2 & -> & G2). exists d2. split; [reflexivity|]. now rewrite <- app_assoc in G2.
Qed.
Lemma vector_spec d0 es d l ps : absent d0 (kstr "eigenvectors") -> gathered d0 es d -> vector_words l ps ->
  exists d', phonon_vector d l = Ok d' /\ gathered d0 (es ++ [named "eigenvectors" (VTuple (map complex_val ps))]) d'.
Proof.
  intros Hu G [w1 w2 ps' l' Hc Hn]. unfold phonon_vector. rewrite (split_cut _ _ Hc), (floats_of _ Hn). cbn [bind]. rewrite complexes_pairs. cbn [bind].
  exact (gathered_step _ _ _ _ _ Hu G).
Qed.
Lemma vectors_spec d0 body vs : absent d0 (kstr "eigenvectors") -> Forall2 vector_words body vs -> forall es d, gathered d0 es d ->
  exists d', foldM phonon_vector body d = Ok d' /\ gathered d0 (es ++ map (fun ps => named "eigenvectors" (VTuple (map complex_val ps))) vs) d'.
Proof.
  intros Hu. induction 1 as [|l m body ms Hl _ IH]; intros es d G; cbn [foldM map]; [exists d; now rewrite app_nil_r|].
  destruct (vector_spec _ _ _ _ _ Hu G Hl) as (d1 & -> & G1). cbn [bind]. destruct (IH _ _ G1) as (d2 & -> & G2). exists d2. split; [reflexivity|]. now rewrite <- app_assoc in G2.
Qed.
Definition q_start (q : qpoint) : dict :=
  named "qpt" (floats (q_at q)) :: named "weight" (SpecCastep.float_of (q_weight q)) :: match q_dir q with [] => [] | ns => [named "dir" (floats ns)] end.
Lemma q_start_gathered q : gathered (q_start q) [] (q_start q).
Proof.
  split.
  - unfold q_start. destruct (q_dir q); cbn; repeat (constructor; [cbn; intros C; repeat (destruct C as [C|C]; [discriminate C|]); exact C|]); constructor.
  - intros k v. split; [now left|]. intros [H|(vs & Hv & _ & Hc)]; [exact H|]. cbn in Hc. inversion Hc. subst vs. now destruct Hv.
Qed.
Lemma q_start_unnamed q : unnamed ["eigenvalues"; "ir_intensity"; "raman_intensity"; "eigenvectors"]%string (q_start q).
Proof.
  intros k Hk C. assert (Q : In (KStr (text_of k)) (map (fun s => KStr (text_of s)) ["qpt"; "weight"; "dir"]%string)).
  { unfold q_start in C. destruct (q_dir q); cbn in C |- *; tauto. }
  cbn in Hk, Q. repeat (destruct Hk as [<-|Hk]; [repeat (destruct Q as [Q|Q]; [discriminate Q|]); exact Q|]). exact Hk.
Qed.
Lemma has_text_iff w l : has_text w l <-> contains w l = true.
Proof. rewrite contains_iff. reflexivity. Qed.
(** ** Files *)
Definition ends (b i : Z) : option str := Some (in_four b ++ in_four i).
Lemma gap_loop gap ls st b i n : Forall no_block gap -> p_end st = ends b i -> length (gap ++ ls) <= n ->
  exists n', length ls <= n' /\ file_loop phonon_step n st (gap ++ ls) = file_loop phonon_step n' st ls.
Proof.
  intros H He. revert n. induction H as [|l gap (H1 & H2 & H3) _ IH]; intros n Hn; [now exists n|].
  destruct n as [|n]; [cbn in Hn; lia|]. cbn [app] in *. destruct (IH n ltac:(cbn in Hn; lia)) as (n' & Hn' & E). exists n'. split; [exact Hn'|].
  rewrite <- E. apply loop_cons. unfold phonon_step. rewrite !if_block_no by assumption. rewrite He. unfold ends. now rewrite if_block_no by assumption.
Qed.
Lemma gathered_get d0 es d k v : gathered d0 es d -> In (k, v) d0 -> dget key_eqb d k = Some v.
Proof. intros [Hn H] Hin. apply (dget_nodup key_eqb key_eqb_spec); [exact Hn|]. apply H. now left. Qed.
Lemma append_fresh info q : append_same info 0 q = append_to info (kstr "qpts") (VDict true q).
Proof.
  unfold append_same, append_to. destruct (dget key_eqb info (kstr "qpts")) as [v|]; [|reflexivity]. destruct v; try reflexivity.
  rewrite Nat.sub_0_r, firstn_all. reflexivity.
Qed.
Lemma mentions_nonblank s l : mentions s l -> strip (text_of s) <> [] -> ~ blanks l.
Proof.
  intros (a & b & ->) Hs H. unfold blanks in H. rewrite !Forall_app in H. destruct H as (_ & H & _). fold (text_of s) in H. apply strip_empty in H.
  apply Hs. now destruct (strip (text_of s)).
Qed.
Lemma phonon_loop b i d0 ls qs : qpoints b i ls qs -> In (named "branches" (VInt b)) d0 -> In (named "ions" (VInt i)) d0 -> absent d0 (kstr "qpts") ->
  forall vs0 st n, length ls <= n -> p_end st = ends b i -> gathered d0 (map (named "qpts") vs0) (p_info st) ->
  exists st' vs, file_loop phonon_step n st ls = Ok st' /\ Forall2 qpoint_said qs vs /\ gathered d0 (map (named "qpts") (vs0 ++ vs)) (p_info st').
Proof.
  intros H Hb Hi Hq. induction H as [|l ls qs Hl _ IH|l body l' gap m vs last ls q qs Hh D Ht Hlen Hm Hgap Hmh Hmq Hmm Hvs Hlast Hlv Hv _ IH]; intros vs0 st n Hfuel He G.
  - exists st, []. rewrite app_nil_r. split; [now destruct n|]. split; [constructor|exact G].
  - destruct (gap_loop [l] ls st b i n) as (n' & Hn' & E); [now constructor|exact He|exact Hfuel|]. cbn [app] in E. rewrite E. now apply IH.
  - destruct Ht as [w1 w2 l0 Hc H3 Hn]. destruct n as [|n]; [cbn in Hfuel; lia|]. cbn [length] in Hfuel. rewrite app_length in Hfuel. cbn [length] in Hfuel. rewrite app_length in Hfuel. cbn [length] in Hfuel. rewrite app_length in Hfuel. cbn [length] in Hfuel.
    destruct (q_at q) as [|x [|y [|z [|]]]] eqn:Eq; try discriminate. cbn [map app] in Hc, Hn.
    assert (Nq : numbers_ok [x; y; z] /\ numbers_ok [q_weight q] /\ numbers_ok (q_dir q)).
    { inversion_clear Hn as [|? ? N1 Hn1]. inversion_clear Hn1 as [|? ? N2 Hn2]. inversion_clear Hn2 as [|? ? N3 Hn3]. inversion_clear Hn3 as [|? ? N4 Hn4].
      split; [now repeat (constructor; [assumption|])|]. split; [now constructor|exact Hn4]. }
    destruct Nq as (N1 & N2 & N3).
    destruct (modes_spec (q_start q) body (q_modes q) (fun k Hk => q_start_unnamed q k ltac:(cbn in Hk |- *; tauto)) Hm [] _ (q_start_gathered q)) as (d1 & Em & G1).
    destruct (vectors_spec (q_start q) (vs ++ [last]) (q_vectors q) (q_start_unnamed q "eigenvectors"%string ltac:(cbn; tauto)) Hv _ _ G1) as (d2 & Ev & G2).
    assert (Xb : dget key_eqb (p_info st) (kstr "branches") = Some (VInt b)) by exact (gathered_get _ _ _ _ _ G Hb).
    assert (Xi : dget key_eqb (p_info st) (kstr "ions") = Some (VInt i)) by exact (gathered_get _ _ _ _ _ G Hi).
    set (st1 := {| p_info := p_info st; p_end := p_end st; p_q := Some (d1, 0) |}).
    assert (S1 : phonon_step st l0 (body ++ l' :: gap ++ m :: vs ++ last :: ls) = Ok (st1, gap ++ m :: vs ++ last :: ls)).
    { unfold phonon_step. rewrite if_block_no by exact Hh. rewrite (if_block_yes _ _ _ _ _ _ _ _ D) by discriminate.
      unfold phonon_qpt. rewrite (split_cut _ _ Hc).
      change [write_num x; write_num y; write_num z] with (map write_num [x; y; z]). rewrite (floats_tuple _ N1). cbn [bind]. rewrite (fit_one _ N2). cbn [bind].
      assert (Eqs : (match map write_num (q_dir q) with
            | [] => Ok [(kstr "qpt", floats [x; y; z]); (kstr "weight", SpecCastep.float_of (q_weight q))]
            | _ => d <- to_tuple TFloat (map write_num (q_dir q)) ;; Ok [(kstr "qpt", floats [x; y; z]); (kstr "weight", SpecCastep.float_of (q_weight q)); (kstr "dir", d)]
            end) = Ok (q_start q)).
      { rewrite (floats_tuple _ N3). unfold q_start. rewrite Eq. now destruct (q_dir q). }
      rewrite Eqs. cbn [bind]. rewrite Xb.
      assert (L : (Z.of_nat (length (l0 :: body ++ [l'])) - 2 =? b)%Z = true). { apply Z.eqb_eq. cbn [length]. rewrite app_length. cbn [length]. lia. }
      rewrite L, skip_first_last, Em. reflexivity. }
    rewrite (loop_cons _ _ _ _ _ _ _ S1).
    destruct (gap_loop gap (m :: vs ++ last :: ls) st1 b i n Hgap He) as (n' & Hn' & E). { rewrite app_length. cbn [length]. rewrite app_length. cbn [length]. lia. }
    rewrite E. destruct n' as [|n']; [cbn in Hn'; lia|]. cbn [length] in Hn'. rewrite app_length in Hn'. cbn [length] in Hn'.
    destruct (gathered_step d0 _ _ (kstr "qpts") (VDict true d2) Hq G) as (info & Ei & Gi).
    set (st2 := {| p_info := info; p_end := p_end st; p_q := Some (d2, 1) |}).
    assert (S2 : phonon_step st1 m (vs ++ last :: ls) = Ok (st2, ls)).
    { unfold phonon_step. rewrite !if_block_no by assumption. cbn [p_end st1]. rewrite He. unfold ends.
      rewrite if_block_one; [|now apply mentions_iff|now apply (mentions_nonblank _ _ Hmm)| |now apply has_text_iff].
      - unfold phonon_modes. cbn [p_info p_q p_end st1]. rewrite Xb, Xi.
        assert (L : (Z.of_nat (length (m :: vs ++ [last])) - 1 =? b * i)%Z = true). { apply Z.eqb_eq. rewrite <- Hlv. cbn [length]. lia. }
        rewrite L. assert (R : l_remove_bounds 1 0 (m :: vs ++ [last]) = vs ++ [last]).
        { unfold l_remove_bounds. rewrite Nat.sub_0_r, firstn_all. reflexivity. }
        rewrite R, Ev. cbn [bind]. rewrite append_fresh, Ei. reflexivity.
      - eapply Forall_impl; [|exact Hvs]. intros a Ha. apply (not_true _ _ (has_text_iff _ _)). exact Ha. }
    rewrite (loop_cons _ _ _ _ _ _ _ S2).
    destruct (IH (vs0 ++ [VDict true d2]) st2 n' ltac:(lia) He) as (st' & vs' & E' & F' & G').
    { rewrite map_app. exact Gi. }
    exists st', (VDict true d2 :: vs'). split; [exact E'|]. split; [|now rewrite <- app_assoc in G'].
    constructor; [|exact F']. exists d2. split; [reflexivity|]. exact G2.
Qed.
Lemma said_get es k v es' : said_last es k v -> text_of k <> text_of "coords" -> text_of k <> [] -> dget key_eqb (dict_of key_eqb (without (KStr []) (es ++ [named "coords" es']))) (kstr k) = Some v.
Proof.
  intros (es1 & es2 & -> & Ha) Hk Hk'. unfold without. rewrite !filter_app. cbn [filter fst named].
  assert (Q : key_eqb (KStr (text_of k)) (KStr []) = false). { destruct (key_eqb_spec (KStr (text_of k)) (KStr [])); [congruence|reflexivity]. }
  rewrite Q. cbn [negb]. rewrite <- app_assoc. cbn [app]. apply dget_last. intros C. rewrite map_app, in_app_iff in C. destruct C as [C|C].
  - apply Ha. apply in_map_iff in C as (x & Ex & Hx). apply filter_In in Hx as [Hx _]. apply in_map_iff. now exists x.
  - destruct (negb _) in C; [|destruct C]. destruct C as [C|[]]. cbn in C. injection C as C. now apply Hk.
Qed.
Lemma says_shape its es : header_says its es -> exists v, es = flat_map item_entry its ++ [named "coords" v].
Proof. intros []; eauto. Qed.
Lemma gathered_none d : NoDup (map fst d) -> gathered d [] d.
Proof.
  intros H. split; [exact H|]. intros k v. split; [now left|]. intros [H'|(vs & Hv & _ & Hc)]; [exact H'|]. cbn in Hc. inversion Hc. subst vs. now destruct Hv.
Qed.
Theorem phonon_exact ls its b i qs : phonon_file its b i qs ls -> one_kind its -> ~ absent (flat_map item_entry its) (KStr []) ->
  said_last (flat_map item_entry its) "branches" (VInt b) -> said_last (flat_map item_entry its) "ions" (VInt i) ->
  unnamed ["qpts"]%string (flat_map item_entry its) ->
  exists es d0 vs d, parse_phonon_file ls = Ok (VDict true d) /\ header_says its es /\ merged (without (KStr []) es) d0 /\
    Forall2 qpoint_said qs vs /\ gathered d0 (map (named "qpts") vs) d.
Proof.
  intros [hd ls' Hh Hp] Hk Hu Hb Hi Hq. destruct (header_block_text _ _ _ Hh) as (l & body & l' & E & D & H).
  destruct (header_exact [] _ _ _ ltac:(right; split; reflexivity) H Hk) as (d0 & es & E0 & Hs & ->).
  destruct (says_shape _ _ Hs) as (cv & Ees).
  set (d0 := dict_of key_eqb (without (KStr []) es)).
  assert (Gb : dget key_eqb d0 (kstr "branches") = Some (VInt b)) by (unfold d0; rewrite Ees; now apply said_get).
  assert (Gi : dget key_eqb d0 (kstr "ions") = Some (VInt i)) by (unfold d0; rewrite Ees; now apply said_get).
  assert (Aq : absent d0 (kstr "qpts")).
  { intros C. apply keys_dict_of in C. apply in_map_iff in C as (x & Ex & Hx). apply filter_In in Hx as [Hx _]. rewrite Ees, in_app_iff in Hx. destruct Hx as [Hx|[<-|[]]]; [|discriminate Ex].
    apply (Hq "qpts"%string); [now left|]. apply in_map_iff. now exists x. }
  destruct (phonon_loop b i d0 ls' qs Hp (dget_in key_eqb key_eqb_spec _ _ _ Gb) (dget_in key_eqb key_eqb_spec _ _ _ Gi) Aq [] {| p_info := d0; p_end := ends b i; p_q := None |}
    (length body + length (l' :: ls')) ltac:(cbn; lia) eq_refl (gathered_none d0 (nodup_dict_of _))) as (st' & vs & Ef & F & G).
  exists es, d0, vs, (p_info st'). split; [|split; [exact Hs|split; [apply dict_of_merged|split; [exact F|exact G]]]].
  unfold parse_phonon_file, over_file. rewrite E in H, E0 |- *. cbn [app length file_loop]. rewrite <- app_assoc. cbn [app].
  unfold phonon_step at 1. rewrite (if_block_yes _ _ _ _ _ _ _ _ D) by discriminate.
  unfold phonon_header. rewrite E0. cbn [bind p_info]. rewrite update_nil.
  rewrite dmem_dict_of; [|intros Q; apply Hu; intros Q'; apply Q; destruct Hs; rewrite map_app, in_app_iff; now left].
  cbn [negb]. rewrite ddel_dict_of. fold d0. rewrite Gb. cbn [format4 bind]. rewrite Gi. cbn [format4 bind].
  rewrite app_length. unfold ends, in_four in Ef. cbn [p_q]. rewrite Ef. reflexivity.
Qed.
