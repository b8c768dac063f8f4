(** Facts about the tables of numbers of .castep files. *)
From Coq Require Import QArith Qreduction.
From Verif Require Import PyBase PyFacts PyVal Regex RegexFacts RegexComplete CastepRes NumSpec NumFacts NumProps
  StrUtil SpecStr StrUtilFacts SpecLine SpecType TypeConv TypeConvFacts IntStr DictUtil SpecDict DictFacts Stream StreamFacts
  SpecTable ColumnFacts TextParsers TextParsersFacts Header HeaderFacts SpecMd MdFacts SpecBands BandsFacts NeedFacts PhononFacts SpecCastep CastepBlocks CastepFacts
  SpecFiles SpecFiles2 TextFiles FileFacts FileParts FileParts2 FileParts3 FileParts4 FileParts5 CastepNum SpecCastep2.
From Verif Require Import NumVal.
From Verif Require CellFacts CellPosFacts CellBlockFacts.
Local Open Scope list_scope.
Local Open Scope nat_scope.

Lemma numbers_lines ls nss : Forall2 numbers_on ls nss -> map get_numbers ls = map (map write_num) nss.
Proof. induction 1 as [|l ns ls nss H _ IH]; [reflexivity|]. cbn [map]. now rewrite (get_numbers_line _ _ H), IH. Qed.
Lemma lines_wf ls nss : Forall2 numbers_on ls nss -> Forall (Forall num_wf) nss.
Proof. induction 1 as [|l ns ls nss H _ IH]; constructor; [|exact IH]. apply Forall_wf, (number_line_ok _ _ H). Qed.
Lemma types_floats ns : Forall num_wf ns -> all_fit ns -> to_types TFloat (map write_num ns) = Ok (map SpecCastep.float_of ns).
Proof.
  intros Hw Hf. unfold to_types. apply mapM_map. intros n Hn. unfold all_fit in Hf. rewrite Forall_forall in *. now rewrite to_float by auto.
Qed.
Lemma types_ints ns : Forall num_wf ns -> Forall is_int ns -> to_types TInt (map write_num ns) = Ok (map (fun n => VInt (int_value n)) ns).
Proof.
  intros Hw Hf. unfold to_types. apply mapM_map. intros n Hn. rewrite Forall_forall in *. now rewrite to_int by auto.
Qed.
Lemma filter_map {A B} (f : A -> B) (p : B -> bool) l : filter p (map f l) = map f (filter (fun x => p (f x)) l).
Proof. induction l as [|a l IH]; [reflexivity|]. cbn. destruct (p (f a)); cbn; now rewrite IH. Qed.

(** ** Matrices *)
Lemma matrix_rows_spec ls nss : Forall2 numbers_on ls nss -> Forall all_fit (filter matrix_row nss) ->
  CastepNum.matrix_rows ls = Ok (map (map SpecCastep.float_of) (filter matrix_row nss)).
Proof.
  intros H Hf. unfold CastepNum.matrix_rows. rewrite (numbers_lines _ _ H), filter_map.
  rewrite (filter_ext _ matrix_row) by (intros ns; unfold matrix_row; now rewrite map_length).
  apply mapM_map. intros ns Hn. pose proof (lines_wf _ _ H) as Hw. rewrite Forall_forall in Hw, Hf.
  apply types_floats; [|auto]. apply filter_In in Hn as [Hn _]. auto.
Qed.
Lemma matrix_spec ls nss : Forall2 numbers_on ls nss -> Forall all_fit (filter matrix_row nss) ->
  process_3_6_matrix false ls = Ok (matrix (filter matrix_row nss), VNone) /\
  process_3_6_matrix true ls = matrices (filter matrix_row nss).
Proof.
  intros H Hf. unfold process_3_6_matrix. rewrite (matrix_rows_spec _ _ H Hf). cbn [bind]. unfold matrix, vector. rewrite map_map. split; [reflexivity|].
  destruct (filter matrix_row nss) as [|r rs]; [reflexivity|]. cbn [map nthE nth_error bind]. rewrite map_length. cbn [matrices].
  change 6 with (S 5). destruct (Nat.eqb (length r) 6); [|unfold matrix, vector; reflexivity].
  unfold matrix, vector, left_half, right_half. f_equal. cbn [map]. rewrite !map_map.
  f_equal; f_equal; (f_equal; [f_equal; now rewrite ?skipn_map, firstn_map|]); apply map_ext; intros x; f_equal; now rewrite ?skipn_map, firstn_map.
Qed.

(** ** The unit cell *)
Lemma tuple_fit ns : Forall num_wf ns -> all_fit ns -> to_tuple TFloat (map write_num ns) = Ok (vector ns).
Proof. intros Hw Hf. now rewrite to_tuple_nums. Qed.
Lemma at_number t l ns i n v : number_line ns l -> nth_error ns i = Some n -> to_type t (VStr (write_num n)) = Ok v -> number_at t l i = Ok v.
Proof. intros H E Hv. unfold number_at, item, nthE. rewrite (get_numbers_line _ _ H), nth_error_map, E. exact Hv. Qed.
Lemma line_nth_wf l ns i n : number_line ns l -> nth_error ns i = Some n -> num_wf n.
Proof. intros H E. eapply nth_ok; [|exact E]. apply Forall_wf, (number_line_ok _ _ H). Qed.
Lemma at_float l ns i n : number_line ns l -> nth_error ns i = Some n -> fits (num_value n) -> number_at TFloat l i = Ok (SpecCastep.float_of n).
Proof. intros H E Hf. eapply at_number; [exact H|exact E|]. rewrite to_float; [reflexivity|eapply line_nth_wf; eassumption|exact Hf]. Qed.
Lemma at_int l ns i n : number_line ns l -> nth_error ns i = Some n -> is_int n -> number_at TInt l i = Ok (VInt (int_value n)).
Proof. intros H E Hf. eapply at_number; [exact H|exact E|]. rewrite to_int; [reflexivity|eapply line_nth_wf; eassumption|exact Hf]. Qed.
Lemma at_builtin l ns i n : number_line ns l -> nth_error ns i = Some n -> fits (num_value n) -> float_at l i = Ok (SpecCastep.float_of n).
Proof.
  intros H E Hf. unfold float_at, item, nthE. rewrite (get_numbers_line _ _ H), nth_error_map, E. cbn [option_map bind].
  now rewrite builtin_num by (eauto using line_nth_wf).
Qed.
Definition cell_state (st : cellst) (rows : list cell_item) : cellst :=
  {| c_real := c_real st ++ flat_map (fun r => match r with Lattice a _ => [vector a] | _ => [] end) rows;
     c_recip := c_recip st ++ flat_map (fun r => match r with Lattice _ b => [vector b] | _ => [] end) rows;
     c_par := c_par st ++ flat_map (fun r => match r with Angle p _ => [SpecCastep.float_of p] | _ => [] end) rows;
     c_ang := c_ang st ++ flat_map (fun r => match r with Angle _ q => [SpecCastep.float_of q] | _ => [] end) rows;
     c_prop := c_prop st ++ flat_map (fun r => match r with Property p => [SpecCastep.float_of p] | _ => [] end) rows |}.
Lemma angle_test l : (contains ($"alpha") l || contains ($"beta") l || contains ($"gamma") l = true) <-> exists w, In w angle_names /\ mentions w l.
Proof.
  unfold angle_names. rewrite !orb_true_iff, <- !mentions_iff. split.
  - intros [[H|H]|H]; eexists; (split; [|exact H]); cbn; tauto.
  - intros (w & [<-|[<-|[<-|[]]]] & H); tauto.
Qed.
Lemma halves_l {A} (x y : list A) n : length x = n -> firstn n (x ++ y) = x.
Proof. intros <-. rewrite firstn_app, firstn_all, Nat.sub_diag. apply app_nil_r. Qed.
Lemma halves_r {A} (x y : list A) n : length x = n -> skipn n (x ++ y) = y.
Proof. intros <-. now rewrite skipn_app, skipn_all, Nat.sub_diag. Qed.
Lemma cell_line_row st l r : cell_row l r -> cell_line st l = Ok (cell_state st [r]).
Proof.
  unfold cell_line, cell_state. intros [l' a b Hn Ha Hb Hfa Hfb|l' w p q Hn Hw Hm Hf|l' p q Hn Hw Hf]; rewrite (get_numbers_line _ _ Hn); cbv zeta.
  - pose proof (Forall_wf _ (number_line_ok _ _ Hn)) as Hwf. apply Forall_app in Hwf as [Hwa Hwb].
    rewrite map_length, app_length, Ha, Hb. cbn [Nat.add Nat.eqb flat_map]. rewrite !app_nil_r.
    rewrite map_app, halves_l, halves_r by now rewrite map_length.
    rewrite (firstn_all2 (map write_num b)) by (rewrite map_length; lia). rewrite !tuple_fit by assumption. reflexivity.
  - cbn [length map Nat.eqb]. inversion Hf as [|? ? Hfp Hf']; subst. inversion Hf' as [|? ? Hfq _]; subst.
    assert (contains ($"alpha") l' || contains ($"beta") l' || contains ($"gamma") l' = true) as -> by (apply angle_test; eauto).
    rewrite (at_float _ _ 0 p Hn eq_refl Hfp). cbn [bind]. rewrite (at_float _ _ 1 q Hn eq_refl Hfq). cbn [bind flat_map app]. now rewrite !app_nil_r.
  - cbn [length map Nat.eqb]. inversion Hf as [|? ? Hfp _]; subst.
    destruct (contains ($"alpha") l' || contains ($"beta") l' || contains ($"gamma") l') eqn:E.
    { apply angle_test in E as (w & Hin & Hm). exfalso. exact (Hw w Hin Hm). }
    rewrite (at_builtin _ _ 0 p Hn eq_refl Hfp). cbn [bind flat_map app]. now rewrite !app_nil_r.
Qed.
Lemma cell_line_other st l : not_cell_row l -> cell_line st l = Ok st.
Proof.
  intros (ns & Hn & H6 & H2). unfold cell_line. rewrite (get_numbers_line _ _ Hn), map_length.
  apply Nat.eqb_neq in H6, H2. cbv zeta. now rewrite H6, H2.
Qed.
Lemma cell_state_app st r rs : cell_state (cell_state st [r]) rs = cell_state st (r :: rs).
Proof. unfold cell_state. cbn. f_equal; rewrite <- app_assoc; now rewrite app_nil_r. Qed.
Lemma cell_lines ls rows : laid cell_row not_cell_row ls rows -> forall st, foldM cell_line ls st = Ok (cell_state st rows).
Proof.
  induction 1 as [|l r ls rs H _ IH|l ls rs H _ IH]; intros st; cbn [foldM].
  - unfold cell_state. cbn. rewrite !app_nil_r. now destruct st.
  - rewrite (cell_line_row _ _ _ H). cbn [bind]. rewrite IH. now rewrite cell_state_app.
  - rewrite (cell_line_other _ _ H). apply IH.
Qed.
Lemma unit_cell_spec ls rows : laid cell_row not_cell_row ls rows -> process_unit_cell ls = Ok (cell_read rows).
Proof. intros H. unfold process_unit_cell. rewrite (cell_lines _ _ H). reflexivity. Qed.

(** ** Occupancies *)
Lemma numbered_laid {A} (row : str -> A -> Prop) (f : A -> list num) ls rows :
  (forall l a, row l a -> number_line (f a) l /\ f a <> []) -> laid row no_digits ls rows ->
  numbered ls = map (fun a => map write_num (f a)) rows.
Proof.
  intros Hr. unfold numbered. induction 1 as [|l a ls rs H _ IH|l ls rs H _ IH]; cbn [map filter]; [reflexivity| |].
  - destruct (Hr _ _ H) as [Hn Hne]. rewrite (get_numbers_line _ _ Hn). destruct (f a); [congruence|]. cbn [map isempty negb]. now rewrite IH.
  - rewrite (get_numbers_line [] l (line_none _ H)). cbn [map isempty negb]. exact IH.
Qed.
Definition oc_nums (r : num * num * num) : list num := let '(b, e, o) := r in [b; e; o].
Lemma laid_in {A} (row : str -> A -> Prop) other ls rows a : laid row other ls rows -> In a rows -> exists l, row l a.
Proof. induction 1 as [|l b ls rs H _ IH|l ls rs H _ IH]; [intros []| |exact IH]. intros [<-|Hi]; eauto. Qed.
Lemma occupancies_spec ls rows : laid SpecCastep2.occupancy_row no_digits ls rows -> process_occupancies ls = Ok (map occupancy rows).
Proof.
  intros H. unfold process_occupancies.
  rewrite (numbered_laid _ oc_nums _ _) with (2 := H) by (intros l r []; split; [assumption|discriminate]).
  match goal with |- (if ?x then _ else _) = _ => assert (x = true) as -> end.
  { apply forallb_forall. intros ns Hin. apply in_map_iff in Hin as ([[b e] o] & <- & _). reflexivity. }
  apply mapM_map. intros r Hr. destruct (laid_in _ _ _ _ _ H Hr) as [l Hl]. destruct Hl as [l b e o Hn Hb Hf].
  pose proof (Forall_wf _ (number_line_ok _ _ Hn)) as Hw. inversion Hw as [|? ? Wb Hw']; subst. inversion Hw' as [|? ? We Hw'']; subst. inversion Hw'' as [|? ? Wo _]; subst.
  inversion Hf as [|? ? Fe Hf']; subst. inversion Hf' as [|? ? Fo _]; subst.
  unfold CastepNum.occupancy_row, oc_nums. cbn [map zip_strict bind].
  transitivity (rmap (VDict false) (fix_data_types [(kstr "band", VStr (write_num b)); (kstr "eigenvalue", VStr (write_num e)); (kstr "occupancy", VStr (write_num o))]
    [(kstr "band", TInt); (kstr "eigenvalue", TFloat); (kstr "occupancy", TFloat)])); [reflexivity|].
  erewrite fix_step; [|reflexivity|now apply to_int]. erewrite fix_step; [|reflexivity|now apply to_float].
  erewrite fix_step; [|reflexivity|now apply to_float]. reflexivity.
Qed.
Lemma numbered_lines ls nss : Forall2 numbers_on ls nss -> numbered ls = map (map write_num) (some_numbers nss).
Proof.
  intros H. unfold numbered. rewrite (numbers_lines _ _ H), filter_map. f_equal. apply filter_ext. now intros [|n ns].
Qed.
Lemma occupancies_bad ls nss ns : Forall2 numbers_on ls nss -> In ns nss -> length ns <> 0 -> length ns <> 3 -> process_occupancies ls = Err ValueError.
Proof.
  intros H Hin H0 H3. unfold process_occupancies. rewrite (numbered_lines _ _ H).
  match goal with |- (if ?x then _ else _) = _ => assert (x = false) as ->; [|reflexivity] end.
  apply not_true_iff_false. intros E. rewrite forallb_forall in E.
  specialize (E (map write_num ns)). rewrite map_length in E. apply H3, Nat.eqb_eq, E. apply in_map. apply filter_In. split; [exact Hin|]. now destruct ns.
Qed.

(** ** Raman tensors *)
Lemma words_floats ns : Forall num_wf ns -> all_fit ns -> floats_of_words (map write_num ns) = Ok (map (fun n => FQ (Qred (num_value n))) ns).
Proof.
  intros Hw Hf. apply (mapM_map write_num (fun w => rmap FQ (py_float w)) (fun n => FQ (Qred (num_value n)))). intros n Hn. unfold all_fit in Hf.
  rewrite Forall_forall in *. now rewrite py_float_num by auto.
Qed.
Definition fq (n : num) : float := FQ (Qred (num_value n)).
Definition row_floats (r : num * num * num * option num) : list float := let '(x, y, z, _) := r in [fq x; fq y; fq z].
Definition depol (o : option float) (rows : list (num * num * num * option num)) : option float :=
  fold_left (fun o r => match snd r with Some n => Some (fq n) | None => o end) rows o.
Lemma not_mentions_b w l : ~ mentions w l -> contains ($w) l = false.
Proof. intros H. apply not_true_iff_false. now rewrite <- mentions_iff. Qed.
Lemma raman_row_line done m l r : rm_end m = None -> raman_row l r ->
  raman_line (done, Some m) l = Ok (done, Some {| rm_tensor := rm_tensor m ++ [row_floats r]; rm_depol := depol (rm_depol m) [r]; rm_end := None |}).
Proof.
  intros He [l' x y z o Hn Hf Hm]. unfold raman_line. rewrite (not_mentions_b _ _ Hm), (get_numbers_line _ _ Hn).
  pose proof (Forall_wf _ (number_line_ok _ _ Hn)) as Hw. cbn [app map]. rewrite He. cbn [firstn].
  change [write_num x; write_num y; write_num z] with (map write_num [x; y; z]).
  apply Forall_app in Hw as [Hw Hwo]. apply Forall_app in Hf as [Hf Hfo]. rewrite words_floats by assumption. cbn [bind map row_floats].
  destruct o as [n|]; cbn [opt_list map length Nat.eqb nthE nth_error bind].
  - inversion Hwo; inversion Hfo; subst. rewrite builtin_num by assumption. reflexivity.
  - reflexivity.
Qed.
Lemma raman_end_iff l : re_test RAMAN_END_RE l = true <-> exists b r, gap b /\ l = text_of " +" ++ b ++ "+"%char :: r.
Proof.
  unfold re_test. split.
  - intros H. destruct (re_search RAMAN_END_RE l) as [x|] eqn:E; [clear H|discriminate]. unfold re_search in E.
    destruct (search_from RAMAN_END_RE None l) as [[pre y]|] eqn:E'; [|discriminate]. apply search_sound in E' as (s' & E1 & E2 & D). rewrite <- E2 in E1.
    destruct D as (p1 & s1 & c1 & (Hp & <- & <- & <-) & p2 & s2 & c2 & D & p3 & s3 & c3 & D' & D'').
    assert (pre = []) as ->. { destruct pre as [|c pre _] using rev_ind; [reflexivity|]. rewrite pa_snoc in Hp. discriminate. }
    apply den_lit in D as (Es & _). apply (den_rep_chr true 1 None is_space) in D' as (w & Ew & Hlw & _ & Hw & _).
    destruct D'' as (z & -> & Hz & _). apply Ascii.eqb_eq in Hz. subst z.
    exists w, (m_rest y). split; [|rewrite E1, Es, Ew; reflexivity]. split; [now apply blanks_iff|]. destruct w; [cbn in Hlw; lia|discriminate].
  - intros (b & r & (Hb & Hb0) & ->). assert (M : exists x, re_match RAMAN_END_RE (text_of " +" ++ b ++ "+"%char :: r) = Some x).
    { unfold re_match. replace (text_of " +" ++ b ++ "+"%char :: r) with (([] ++ text_of " +" ++ b ++ ["+"%char]) ++ r) by (cbn; now rewrite <- app_assoc).
      rewrite (fp_match_at _ _ _ _ []); [eauto|]. unfold RAMAN_END_RE. cbn [RSeqs]. apply fp_seq with (c1 := []); [apply fp_bol|].
      apply fp_seq with (c1 := []); [apply (fp_lit _ ($" +"))|]. apply fp_seq with (c1 := []).
      - apply fp_plus_chr; [now apply blanks_iff|exact Hb0|reflexivity].
      - apply fp_chr. reflexivity. }
    destruct M as (x & M). now rewrite (match_search _ _ _ M).
Qed.
Lemma raman_other_line st l : raman_other l -> raman_line st l = Ok st.
Proof.
  intros (Hd & Hm & He). unfold raman_line. destruct st as [done cur]. rewrite (not_mentions_b _ _ Hm), (get_numbers_line [] l (line_none _ Hd)). cbn [map].
  destruct (re_test RAMAN_END_RE l) eqn:E; [|reflexivity]. apply raman_end_iff in E as (b & r & Hb & E). exfalso. exact (He b r Hb E).
Qed.
Lemma raman_others ls : Forall raman_other ls -> forall st, foldM raman_line ls st = Ok st.
Proof. induction 1 as [|l ls H _ IH]; intros st; [reflexivity|]. cbn [foldM]. rewrite (raman_other_line _ _ H). apply IH. Qed.
Lemma raman_rows ls rows : laid raman_row raman_other ls rows -> forall done m, rm_end m = None ->
  foldM raman_line ls (done, Some m) =
  Ok (done, Some {| rm_tensor := rm_tensor m ++ map row_floats rows; rm_depol := depol (rm_depol m) rows; rm_end := None |}).
Proof.
  induction 1 as [|l r ls rs H _ IH|l ls rs H _ IH]; intros done m He; cbn [foldM].
  - cbn. rewrite app_nil_r. destruct m; cbn in *. now subst.
  - rewrite (raman_row_line _ _ _ _ He H). cbn [bind]. rewrite IH by reflexivity. cbn. now rewrite <- app_assoc.
  - rewrite (raman_other_line _ _ H). now apply IH.
Qed.
(** The mode as the parser holds it. *)
Definition held (m : raman) : rmode :=
  {| rm_tensor := map row_floats (rn_rows m); rm_depol := depol None (rn_rows m);
     rm_end := if rn_ended m then
       match trace_of (map row_floats (rn_rows m)), second_invariant (map row_floats (rn_rows m)) with Ok t, Ok i => Some (t, i) | _, _ => None end
       else None |}.
Lemma raman_title done cur t : mentions "Mode number" t ->
  raman_line (done, cur) t = Ok (done ++ match cur with Some m => [m] | None => [] end, Some {| rm_tensor := []; rm_depol := None; rm_end := None |}).
Proof. intros H. apply mentions_iff in H. unfold raman_line. now rewrite H. Qed.
Lemma entry_ok rows i j : i < length rows -> j < 3 ->
  entry_at (map row_floats rows) i j = Ok (FQ (Qred (raman_entry {| rn_rows := rows; rn_ended := true |} i j))).
Proof.
  intros Hi Hj. unfold entry_at, nthE, raman_entry. cbn [rn_rows]. rewrite nth_error_map. destruct (nth_error rows i) as [[[[x y] z] o]|] eqn:E.
  - cbn [option_map bind row_floats]. destruct j as [|[|[|j]]]; try reflexivity. lia.
  - apply nth_error_None in E. lia.
Qed.
Lemma red_op f x y (H : forall a b c d, (a == b)%Q -> (c == d)%Q -> (f a c == f b d)%Q) : float_op f (FQ (Qred x)) (FQ (Qred y)) = FQ (Qred (f x y)).
Proof. cbn. f_equal. apply Qred_complete. apply H; apply Qred_correct. Qed.
Lemma red_add x y : fadd (FQ (Qred x)) (FQ (Qred y)) = FQ (Qred (x + y)).
Proof. apply red_op. intros a b c d -> ->. reflexivity. Qed.
Lemma red_mul x y : fmul (FQ (Qred x)) (FQ (Qred y)) = FQ (Qred (x * y)).
Proof. apply red_op. intros a b c d -> ->. reflexivity. Qed.
Lemma red_sub x y : fsub (FQ (Qred x)) (FQ (Qred y)) = FQ (Qred (x - y)).
Proof. apply red_op. intros a b c d -> ->. reflexivity. Qed.
Definition raman_tr (m : raman) : Q :=
  (raman_entry m 0%nat 0%nat + raman_entry m 1%nat 1%nat + raman_entry m 2%nat 2%nat)%Q.
Definition raman_ii (m : raman) : Q := let e := raman_entry m in
  (e 0%nat 0%nat * e 1%nat 1%nat + e 0%nat 0%nat * e 2%nat 2%nat + e 1%nat 1%nat * e 2%nat 2%nat - e 0%nat 1%nat * e 1%nat 0%nat - e 0%nat 2%nat * e 2%nat 0%nat - e 1%nat 2%nat * e 2%nat 1%nat)%Q.
Lemma trace_ok m : 3 <= length (rn_rows m) -> trace_of (map row_floats (rn_rows m)) = Ok (FQ (Qred (raman_tr m))).
Proof.
  intros H. unfold trace_of. rewrite !entry_ok by lia. cbn [bind]. change (FQ 0) with (FQ (Qred 0)). rewrite !red_add. f_equal. f_equal. apply Qred_complete.
  unfold raman_tr, raman_entry. cbn [rn_rows]. ring.
Qed.
Lemma invariant_ok m : 3 <= length (rn_rows m) -> second_invariant (map row_floats (rn_rows m)) = Ok (FQ (Qred (raman_ii m))).
Proof. intros H. unfold second_invariant. rewrite !entry_ok by lia. cbn [bind]. rewrite !red_mul, !red_add, !red_sub. reflexivity. Qed.
Lemma raman_end_line done rows d l : raman_end l -> 3 <= length rows ->
  raman_line (done, Some {| rm_tensor := map row_floats rows; rm_depol := d; rm_end := None |}) l =
  Ok (done, Some {| rm_tensor := map row_floats rows; rm_depol := d;
                    rm_end := Some (FQ (Qred (raman_tr {| rn_rows := rows; rn_ended := true |})), FQ (Qred (raman_ii {| rn_rows := rows; rn_ended := true |}))) |}).
Proof.
  intros (Hd & Hm & He) Hl. unfold raman_line. rewrite (not_mentions_b _ _ Hm), (get_numbers_line [] l (line_none _ Hd)). cbn [map].
  apply raman_end_iff in He. rewrite He. cbn [rm_end rm_tensor rm_depol].
  pose proof (trace_ok {| rn_rows := rows; rn_ended := true |} Hl) as E1. pose proof (invariant_ok {| rn_rows := rows; rn_ended := true |} Hl) as E2.
  cbn [rn_rows] in E1, E2. rewrite E1, E2. reflexivity.
Qed.
Lemma raman_mode_lines ls m : raman_mode ls m -> forall done cur,
  foldM raman_line ls (done, cur) = Ok (done ++ match cur with Some c => [c] | None => [] end, Some (held m)).
Proof.
  intros [t body e os m' Ht Hb He Ho Hl Hen|t body m' Ht Hb Hen] done cur; cbn [foldM]; rewrite (raman_title _ _ _ Ht); cbn [bind].
  - rewrite foldM_app, (raman_rows _ _ Hb) by reflexivity. cbn [bind foldM rm_tensor rm_depol app]. rewrite (raman_end_line _ _ _ _ He Hl). cbn [bind].
    rewrite (raman_others _ Ho). unfold held. rewrite Hen. rewrite (trace_ok _ Hl), (invariant_ok _ Hl). reflexivity.
  - rewrite (raman_rows _ _ Hb) by reflexivity. unfold held. rewrite Hen. reflexivity.
Qed.
Lemma raman_all ls ms : raman_lines ls ms -> forall done cur, exists done' cur',
  foldM raman_line ls (done, cur) = Ok (done', cur') /\ done' ++ match cur' with Some c => [c] | None => [] end = (done ++ match cur with Some c => [c] | None => [] end) ++ map held ms.
Proof.
  induction 1 as [os Ho|os ls m more ms Ho Hm _ IH]; intros done cur.
  - exists done, cur. rewrite (raman_others _ Ho). cbn. now rewrite app_nil_r.
  - rewrite foldM_app, (raman_others _ Ho). cbn [bind]. rewrite foldM_app, (raman_mode_lines _ _ Hm). cbn [bind].
    destruct (IH (done ++ match cur with Some c => [c] | None => [] end) (Some (held m))) as (d & c & E1 & E2). exists d, c. split; [exact E1|].
    rewrite E2. cbn [map]. now rewrite <- !app_assoc.
Qed.
Lemma depol_app o rows : opt_float (depol o rows) =
  match rev (flat_map (fun r => opt_list (snd r)) rows) with n :: _ => SpecCastep.float_of n | [] => opt_float o end.
Proof.
  revert o. induction rows as [|[t [n|]] rows IH]; intros o; [reflexivity| |].
  - change (depol o ((t, Some n) :: rows)) with (depol (Some (fq n)) rows). rewrite IH. cbn [flat_map snd opt_list app rev].
    destruct (rev (flat_map (fun r => opt_list (snd r)) rows)); reflexivity.
  - change (depol o ((t, None) :: rows)) with (depol o rows). rewrite IH. reflexivity.
Qed.
Lemma held_read m : (rn_ended m = true -> 3 <= length (rn_rows m)) -> rmode_val (held m) = raman_read m.
Proof.
  intros H. unfold rmode_val, raman_read, held. cbn [rm_tensor rm_depol rm_end]. rewrite map_map, depol_app.
  assert (E : map (fun x => VTuple (map VFloat (row_floats x))) (rn_rows m) = map (fun r => let '(x, y, z, _) := r in vector [x; y; z]) (rn_rows m)).
  { apply map_ext. now intros [[[x y] z] o]. }
  rewrite E. destruct (rn_ended m); [|reflexivity]. rewrite trace_ok, invariant_ok by auto. reflexivity.
Qed.
Lemma raman_ended ls ms : raman_lines ls ms -> forall m, In m ms -> rn_ended m = true -> 3 <= length (rn_rows m).
Proof.
  induction 1 as [os Ho|os ls m more ms Ho Hm _ IH]; intros m' Hin He; [destruct Hin|]. destruct Hin as [<-|Hin]; [|auto].
  destruct Hm as [t body e os' m Ht Hb He' Ho' Hl Hen|t body m Ht Hb Hen]; [exact Hl|congruence].
Qed.
Lemma raman_spec h ls ms : raman_lines ls ms -> process_raman (h :: ls) = Ok (map raman_read ms).
Proof.
  intros H. unfold process_raman. cbn [next_line bind]. destruct (raman_all _ _ H [] None) as (d & c & -> & E). cbn [bind]. rewrite E. cbn [app].
  rewrite map_map. f_equal. apply map_ext_in. intros m Hin. apply held_read. now apply (raman_ended _ _ H).
Qed.

(** ** The dynamical matrix *)
Lemma real_rows_spec ls1 re ion ls2 : Forall2 dynamical_row ls1 re -> Forall (fun l => ~ mentions "Ion" l) ls1 -> mentions "Ion" ion ->
  real_rows (ls1 ++ ion :: ls2) = Ok (map (map write_num) re, ls2).
Proof.
  intros H. induction H as [|l ns ls1 re Hl _ IH]; intros Hn Hi; cbn [app real_rows].
  - apply mentions_iff in Hi. now rewrite Hi.
  - inversion Hn as [|? ? Hm Hn']; subst. rewrite (not_mentions_b _ _ Hm), (IH Hn' Hi). cbn [bind]. destruct Hl as [l i j ns Hl _].
    now rewrite (get_numbers_line _ _ Hl).
Qed.
Lemma imag_rows ls im : laid dynamical_row no_digits ls im -> map (skipn 2) (numbered ls) = map (map write_num) im.
Proof.
  unfold numbered. induction 1 as [|l a ls rs H _ IH|l ls rs H _ IH]; cbn [map filter]; [reflexivity| |].
  - destruct H as [l i j ns Hl _]. rewrite (get_numbers_line _ _ Hl). cbn [map isempty negb]. refine (f_equal2 cons _ IH). reflexivity.
  - rewrite (get_numbers_line [] l (line_none _ H)). cbn [map isempty negb]. exact IH.
Qed.
Definition row_ok (ns : list num) : Prop := Forall num_wf ns /\ all_fit ns.
Lemma dyn_ok l ns : dynamical_row l ns -> row_ok ns.
Proof.
  intros [l' i j ns' Hn Hf]. split; [|exact Hf]. pose proof (Forall_wf _ (number_line_ok _ _ Hn)) as H.
  inversion H as [|? ? _ H']; subst. now inversion H'.
Qed.
Lemma forall2_ok ls re : Forall2 dynamical_row ls re -> Forall row_ok re.
Proof. induction 1; constructor; eauto using dyn_ok. Qed.
Lemma laid_ok ls re : laid dynamical_row no_digits ls re -> Forall row_ok re.
Proof. induction 1; try constructor; eauto using dyn_ok. Qed.
Lemma zip_strict_map {A B C D} (f : A -> C) (g : B -> D) a b : length a = length b ->
  zip_strict (map f a) (map g b) = Ok (map (fun p => (f (fst p), g (snd p))) (combine a b)).
Proof.
  revert b. induction a as [|x a IH]; intros [|y b] H; try discriminate; [reflexivity|]. cbn. injection H as H. now rewrite IH.
Qed.
Lemma complex_row_spec a b v : complex_row a b v -> row_ok a -> row_ok b -> CastepNum.complex_row (map write_num a, map write_num b) = Ok v.
Proof.
  intros [a' b' Hl] (Wa & Fa) (Wb & Fb). unfold CastepNum.complex_row. cbn [fst snd]. rewrite zip_strict_map by exact Hl. cbn [bind].
  unfold all_fit in *. rewrite Forall_forall in Wa, Fa, Wb, Fb.
  rewrite (mapM_map _ _ (fun p => complex_of (fst p) (snd p))); [reflexivity|]. intros [x y] Hin. unfold complex_at. cbn [fst snd].
  rewrite !builtin_num; eauto using in_combine_l, in_combine_r.
Qed.
Lemma complex_rows_len re im vs : complex_rows re im vs -> length re = length im.
Proof. induction 1; cbn; auto. Qed.
Lemma dynamical_spec ls re im vs : dynamical_lines ls re im -> complex_rows re im vs -> process_dynamical_matrix ls = Ok (VTuple vs).
Proof.
  intros [h1 h2 ls1 ion ls2 re' im' H1 Hn Hi H2] Hc. unfold process_dynamical_matrix. cbn [next_line bind].
  rewrite (real_rows_spec _ _ _ _ H1 Hn Hi). cbn [bind]. rewrite (imag_rows _ _ H2). rewrite zip_strict_map by apply (complex_rows_len _ _ _ Hc). cbn [bind].
  pose proof (forall2_ok _ _ H1) as O1. pose proof (laid_ok _ _ H2) as O2. clear - Hc O1 O2.
  assert (E : mapM CastepNum.complex_row (map (fun p => (map write_num (fst p), map write_num (snd p))) (combine re' im')) = Ok vs); [|now rewrite E].
  induction Hc as [|a b v re im vs H _ IH]; [reflexivity|]. inversion O1; inversion O2; subst. cbn [combine map mapM fst snd].
  rewrite (complex_row_spec _ _ _ H) by assumption. cbn [bind]. now rewrite IH.
Qed.
(** As many rows, as many columns: otherwise ValueError. *)
Lemma zip_strict_bad {A B} (a : list A) (b : list B) : length a <> length b -> zip_strict a b = Err ValueError.
Proof.
  revert b. induction a as [|x a IH]; intros [|y b] H; [contradiction H; reflexivity|reflexivity|reflexivity|]. cbn. rewrite IH; [reflexivity|].
  intros E. apply H. cbn. now rewrite E.
Qed.
Lemma dynamical_bad ls re im : dynamical_lines ls re im -> length re <> length im -> process_dynamical_matrix ls = Err ValueError.
Proof.
  intros [h1 h2 ls1 ion ls2 re' im' H1 Hn Hi H2] Hc. unfold process_dynamical_matrix. cbn [next_line bind].
  rewrite (real_rows_spec _ _ _ _ H1 Hn Hi). cbn [bind]. rewrite (imag_rows _ _ H2). rewrite zip_strict_bad; [reflexivity|]. now rewrite !map_length.
Qed.

(** ** The symmetry analysis of phonons *)
Lemma split_chr_free c s : ~ In c s -> split_chr c s = [s].
Proof.
  induction s as [|x s IH]; intros H; [reflexivity|]. cbn [split_chr]. destruct (Ascii.eqb_spec x c) as [->|]; [exfalso; apply H; now left|].
  rewrite IH; [reflexivity|]. intros Hi. apply H. now right.
Qed.
Lemma split_chr_cut c a s : ~ In c a -> split_chr c (a ++ c :: s) = a :: split_chr c s.
Proof.
  induction a as [|x a IH]; intros H; cbn [app split_chr].
  - now rewrite Ascii.eqb_refl.
  - destruct (Ascii.eqb_spec x c) as [->|]; [exfalso; apply H; now left|]. rewrite IH; [reflexivity|]. intros Hi. apply H. now right.
Qed.
Lemma after_colon_split l t : after_colon l t -> nthE (split_chr ":" l) 1 = Ok t.
Proof.
  intros (a & r & -> & Ha & Ht & Hr). rewrite (split_chr_cut _ _ _ Ha). destruct r as [|c r].
  - rewrite app_nil_r, split_chr_free by exact Ht. reflexivity.
  - rewrite (Hr c r eq_refl). rewrite split_chr_cut by exact Ht. reflexivity.
Qed.
Lemma mixed_read ns v : Forall num_wf ns -> all_fit ns -> mixed ns v -> parse_int_or_float_seq (map write_num ns) = Ok v.
Proof. intros Hw Hf H. destruct (int_or_float_seq ns Hw Hf) as [H1 H2]. destruct H as [ns H|ns H]; auto. Qed.
Lemma mixed_rows ls vs : laid mixed_row no_digits ls vs -> mapM parse_int_or_float_seq (numbered ls) = Ok vs.
Proof.
  unfold numbered. induction 1 as [|l a ls rs H _ IH|l ls rs H _ IH]; cbn [map filter]; [reflexivity| |].
  - destruct H as [l n ns v Hn Hf Hv]. pose proof (Forall_wf _ (number_line_ok _ _ Hn)) as Hw. rewrite (get_numbers_line _ _ Hn). cbn [map isempty negb].
    cbn [mapM]. change (write_num n :: map write_num ns) with (map write_num (n :: ns)). rewrite (mixed_read _ _ Hw Hf Hv). cbn [bind]. now rewrite IH.
  - rewrite (get_numbers_line [] l (line_none _ H)). cbn [map isempty negb]. exact IH.
Qed.
Lemma normalise_string_cut ws s : cut nonblank ws s -> normalise_string s = joined ($" ") ws.
Proof. intros H. destruct (normalise_string_words s) as (ws' & _ & U & ->). now rewrite (U _ H). Qed.
Lemma phonon_sym_spec l t ws h ls vs : after_colon l t -> cut nonblank ws t -> laid mixed_row no_digits ls vs ->
  process_phonon_sym_analysis (l :: h :: ls) = Ok [(name "title", VStr (joined (text_of " ") ws)); (name "mat", VTuple vs)].
Proof.
  intros Ht Hw Hr. unfold process_phonon_sym_analysis. cbn [next_line bind]. rewrite (after_colon_split _ _ Ht). cbn [bind]. rewrite (mixed_rows _ _ Hr). cbn [bind].
  now rewrite (normalise_string_cut _ _ Hw).
Qed.

(** ** Lines that name what they say *)
Lemma upd_app (d a b : dict) : dupdate key_eqb d (a ++ b) = dupdate key_eqb (dupdate key_eqb d a) b.
Proof. unfold dupdate. apply fold_left_app. Qed.
Lemma laid_fold {A} (row : str -> A -> Prop) (other : str -> Prop) (f : dict -> str -> result dict) (g : A -> dict) ls rows :
  (forall l a d, row l a -> f d l = Ok (dupdate key_eqb d (g a))) -> (forall l d, other l -> f d l = Ok d) ->
  laid row other ls rows -> forall d, foldM f ls d = Ok (dupdate key_eqb d (flat_map g rows)).
Proof.
  intros Hr Ho. induction 1 as [|l a ls rs H _ IH|l ls rs H _ IH]; intros d; cbn [foldM flat_map].
  - reflexivity.
  - rewrite (Hr _ _ _ H). cbn [bind]. rewrite IH. now rewrite upd_app.
  - rewrite (Ho _ _ H). apply IH.
Qed.
Lemma laid_merged {A} (row : str -> A -> Prop) (other : str -> Prop) (f : dict -> str -> result dict) (g : A -> dict) ls rows :
  (forall l a d, row l a -> f d l = Ok (dupdate key_eqb d (g a))) -> (forall l d, other l -> f d l = Ok d) ->
  laid row other ls rows -> exists d, foldM f ls [] = Ok d /\ merged (flat_map g rows) d.
Proof. intros Hr Ho H. eexists. split; [apply (laid_fold row other f g _ _ Hr Ho H)|]. apply (merged_dict_of key_eqb key_eqb_spec). Qed.
Lemma turn_loop (item : list str -> dict -> Prop) (step : dict -> str -> list str -> result (dict * list str)) ls es :
  (forall b fs, item b fs -> exists l r, b = l :: r /\ forall st more, step st l (r ++ more) = Ok (dupdate key_eqb st fs, more)) ->
  in_turn item ls es -> forall n st, length ls <= n -> file_loop step n st ls = Ok (dupdate key_eqb st es).
Proof.
  intros Hi. induction 1 as [|b fs ls gs Hb _ IH]; intros n st Hn; [destruct n; reflexivity|].
  destruct (Hi _ _ Hb) as (l & r & -> & E). cbn [app length] in *. rewrite app_length in Hn. destruct n as [|n]; [lia|].
  rewrite (loop_cons step n st l _ _ _ (E st ls)). rewrite IH by lia. now rewrite upd_app.
Qed.
Lemma turn_merged (item : list str -> dict -> Prop) (step : dict -> str -> list str -> result (dict * list str)) ls es :
  (forall b fs, item b fs -> exists l r, b = l :: r /\ forall st more, step st l (r ++ more) = Ok (dupdate key_eqb st fs, more)) ->
  in_turn item ls es -> exists d, over_file step [] ls = Ok d /\ merged es d.
Proof.
  intros Hi H. eexists. split; [apply (turn_loop item step ls es Hi H); auto|]. apply (merged_dict_of key_eqb key_eqb_spec).
Qed.
Lemma flat_one {A B} (l : list (A * B)) : flat_map (fun x => [x]) l = l.
Proof. induction l as [|x l IH]; [reflexivity|]. cbn. now rewrite IH. Qed.
Lemma named_key k nm : key_name k nm -> normalise_key k = nm.
Proof. intros (ws & H & ->). now rewrite (normalise_key_cut _ _ H). Qed.

(** Finalisation *)
Lemma equals_line l e d : equals_row l e -> finalisation_line d l = Ok (dupdate key_eqb d [e]).
Proof.
  intros [k v n ns nm Hk Hv Hn Hf Hnm]. unfold finalisation_line.
  destruct (isempty (strip (k ++ "="%char :: v))) eqn:E.
  { apply strip_empty in E. apply blanks_iff in E. rewrite forallb_app in E. apply andb_true_iff in E as [_ E]. discriminate. }
  unfold split_two. rewrite (split_chr_cut _ _ _ Hk), (split_chr_free _ _ Hv). cbn [bind].
  rewrite (at_builtin _ _ 0 n Hn eq_refl Hf). cbn [bind]. now rewrite (named_key _ _ Hnm).
Qed.
Lemma finalisation_blank l d : blanks l -> finalisation_line d l = Ok d.
Proof. intros H. unfold finalisation_line. apply strip_empty in H. now rewrite H. Qed.
Lemma finalisation_spec ls es : laid equals_row blanks ls es -> exists d, process_finalisation ls = Ok d /\ merged es d.
Proof.
  intros H. rewrite <- (flat_one es). apply (laid_merged equals_row blanks); [|intros; now apply finalisation_blank|exact H]. intros l e d He. now apply equals_line.
Qed.
Lemma split_chr_len c s : length (split_chr c s) = S (count_occ ascii_dec s c).
Proof.
  induction s as [|x s IH]; [reflexivity|]. cbn [split_chr count_occ]. destruct (Ascii.eqb_spec x c) as [->|N].
  - destruct (ascii_dec c c); [|congruence]. cbn. now rewrite IH.
  - destruct (ascii_dec x c); [congruence|]. destruct (split_chr c s); [discriminate|]. exact IH.
Qed.
Lemma finalisation_bad ls es l more : laid equals_row blanks ls es -> not_equals l -> process_finalisation (ls ++ l :: more) = Err ValueError.
Proof.
  intros H (Hb & Hl). unfold process_finalisation. rewrite foldM_app.
  rewrite (laid_fold equals_row blanks finalisation_line (fun x => [x]) _ _) with (3 := H); [|intros; now apply equals_line|intros; now apply finalisation_blank].
  cbn [bind foldM]. assert (E : forall d, finalisation_line d l = Err ValueError); [|now rewrite E]. intros d. unfold finalisation_line.
  destruct (isempty (strip l)) eqn:Es; [exfalso; now apply Hb, strip_empty|]. unfold split_two.
  pose proof (split_chr_len "=" l) as L. destruct Hl as [Hl|(a' & b' & r & ->)].
  - apply (count_occ_not_In ascii_dec) in Hl. rewrite Hl in L. destruct (split_chr "=" l) as [|w1 [|w2 ws]]; try discriminate. reflexivity.
  - rewrite !count_occ_app in L. cbn [count_occ] in L. destruct (ascii_dec "=" "="); [|congruence].
    rewrite count_occ_app in L. cbn [count_occ] in L. destruct (ascii_dec "=" "="); [|congruence].
    destruct (split_chr "=" _) as [|w1 [|w2 [|w3 ws]]]; cbn in L; try lia. reflexivity.
Qed.

(** Autosolvation *)
Lemma solvation_line l e d : solvation_row l e -> autosolvation_line d l = Ok (dupdate key_eqb d [e]).
Proof.
  intros [k v n ns nm Hk Hn Hf Hnm]. unfold autosolvation_line. rewrite (split_chr_cut _ _ _ Hk).
  pose proof (split_chr_len "=" v) as L. destruct (split_chr "=" v); [discriminate|]. rewrite (at_float _ _ 0 n Hn eq_refl Hf). cbn [bind].
  now rewrite (named_key _ _ Hnm).
Qed.
Lemma autosolvation_spec ls es : laid solvation_row (fun l => ~ In "="%char l) ls es -> exists d, process_autosolvation ls = Ok d /\ merged es d.
Proof.
  intros H. rewrite <- (flat_one es). eapply laid_merged; [| |exact H].
  - intros l e d He. now apply solvation_line.
  - intros l d Hl. unfold autosolvation_line. now rewrite split_chr_free.
Qed.

(** Memory *)
Lemma fp_grp_plus n f b p w t s c c' : w <> [] -> forallb f w = true ->
  (forall u v q c0, t ++ s = u ++ v -> u <> [] -> forallb f u = true -> nomatch b q v c0) ->
  fp b (pa p w) t s ((n, w) :: c) c' -> fp (RSeq (RGrp n (RPlus (RChr f))) b) p (w ++ t) s c c'.
Proof.
  intros Hw0 Hw Hn Hb R k y Hk. destruct w as [|x w]; [congruence|]. cbn in Hw. apply andb_true_iff in Hw as [Hx Hw].
  cbn [m]. unfold RPlus. rewrite m_rep. cbn [rep_lo app]. rewrite m_chr, Hx. rewrite <- app_assoc. apply rep_hi_back; auto.
  - intros u v q E Hu Hf. now apply Hn with (u := u).
  - replace (length (x :: w ++ t ++ s) - length (t ++ s)) with (length (x :: w)) by (cbn [length]; rewrite !app_length; lia).
    change (x :: w ++ t ++ s) with ((x :: w) ++ t ++ s).
    rewrite firstn_app, Nat.sub_diag, firstn_all. cbn [firstn]. rewrite app_nil_r.
    apply (Hb R k y). now rewrite pa_app in Hk.
Qed.
Lemma fp_suffixed l w p g n s c : forallb is_space g = true -> g <> [] -> num_ok n -> follow_ok n ($w ++ s) ->
  fp (RSeqs [lf_sep; RGrp l NUMBER_RE; RLit w]) p (g ++ write_num n ++ $w) s c ((l, write_num n) :: c).
Proof.
  intros Hg Hg0 Hn Hs. cbn [RSeqs]. unfold lf_sep.
  apply fp_lazy_plus_seq; [exact Hg|exact Hg0| |].
  - intros p' y s' Hy. apply nomatch_seq_l, nomatch_grp, nomatch_NUMBER. now apply start_num_space.
  - apply fp_seq with (c1 := (l, write_num n) :: c).
    + apply fp_grp. apply fp_NUMBER; [exact Hn|exact Hs|now apply prev_ok_space].
    + apply (fp_lit _ ($w)).
Qed.
Lemma num_hd_alpha n s : num_ok n -> hd_not (fun c => is_alpha c || Ascii.eqb c " ") (write_num n ++ s).
Proof.
  intros [Hw [Hw' _]]. destruct n as [sg i f e]. cbn in Hw, Hw'. unfold write_num. cbn [n_sign n_int n_frac n_exp].
  destruct sg; cbn [write_sign app]; try reflexivity. destruct i as [|d i].
  - destruct f as [f|]; [reflexivity|]. exfalso. now apply Hw'.
  - cbn. destruct d; reflexivity.
Qed.
Lemma memory_match l e : memory_row l e -> exists x, re_match MEMORY_RE l = Some x /\
  (m <- float_group x "memory" ;; k <- float_group x "disk" ;;
   Ok (KStr (normalise_key (group_s x "1")), VDict false [(kstr "memory", m); (kstr "disk", k)])) = Ok e.
Proof.
  intros [a k m g d r nm Ha Hk0 Hk Hm Fm (Hg & Hg0) Hd Fd Hnm].
  assert (F : fp MEMORY_RE None (a ++ ["|"%char] ++ k ++ (([" "%char] ++ write_num m ++ $" MB") ++ (g ++ write_num d ++ $" MB"))) r []
                [("disk"%string, write_num d); ("memory"%string, write_num m); ("1"%string, k)]).
  { unfold MEMORY_RE. cbn [RSeqs]. apply fp_seq with (c1 := []); [apply fp_star_chr; [now apply blanks_iff|reflexivity]|].
    apply fp_seq with (c1 := []); [apply fp_char|].
    apply fp_grp_plus.
    - exact Hk0.
    - apply forallb_forall. intros c Hc. destruct (Hk c Hc) as [Hl| ->]; [now rewrite letter_alpha|reflexivity].
    - intros u v q c0 E Hu Hf. destruct u as [|u1 u]; [congruence|]. cbn in E. injection E as <- E.
      destruct u as [|u2 u].
      + cbn [app] in E. subst v. unfold labelled_floats_gen. cbn [map RSeqs labelled_float snd fst]. apply nomatch_seq_l, nomatch_seq_l, nomatch_first; [reflexivity|].
        rewrite <- !app_assoc. apply (num_hd _ _ Hm).
      + exfalso. rewrite <- !app_assoc in E. match type of E with write_num m ++ ?z = _ => pose proof (num_hd_alpha m z Hm) as H1 end. rewrite E in H1. cbn [hd_not app] in H1. cbv beta in H1.
        cbn [forallb] in Hf. apply andb_true_iff in Hf as [_ Hf]. apply andb_true_iff in Hf as [Hf _]. cbv beta in Hf. congruence.
    - unfold labelled_floats_gen. cbn [map RSeqs labelled_float snd fst]. apply fp_seq with (c1 := [("memory"%string, write_num m); ("1"%string, k)]).
      + apply (fp_suffixed "memory" " MB"); [reflexivity|discriminate|exact Hm|]. apply token_end_follow. intros c t E. injection E as <- _. apply blank_iff. reflexivity.
      + apply (fp_suffixed "disk" " MB"); [now apply blanks_iff|exact Hg0|exact Hd|]. apply token_end_follow. intros c t E. injection E as <- _. apply blank_iff. reflexivity. }
  apply fp_match_at in F. unfold re_match.
  replace (a ++ "|"%char :: k ++ " "%char :: write_num m ++ text_of " MB" ++ g ++ write_num d ++ text_of " MB" ++ r)
    with ((a ++ ["|"%char] ++ k ++ ([" "%char] ++ write_num m ++ $" MB") ++ g ++ write_num d ++ $" MB") ++ r) by (cbn [app]; rewrite <- !app_assoc; cbn [app]; rewrite <- !app_assoc; cbn [app]; rewrite <- !app_assoc; reflexivity).
  rewrite F. eexists. split; [reflexivity|].
  unfold float_group. match goal with |- context [group_s ?x "memory"] => change (group_s x "memory") with (write_num m); change (group_s x "disk") with (write_num d); change (group_s x "1") with k end. apply num_ok_wf in Hm, Hd.
  rewrite !builtin_num by assumption. cbn [rmap bind]. now rewrite (named_key _ _ Hnm).
Qed.
Lemma memory_spec ls es : laid memory_row not_memory ls es -> exists d, process_memory_est ls = Ok d /\ merged es d.
Proof.
  intros H. rewrite <- (map_id es). apply (dict_rows_laid memory_row not_memory _ _ (fun e => e)); [exact memory_match| |exact H].
  intros l [Hl|Hl]; [apply (needs_match is_digit); [reflexivity|now apply lacks_digits]|].
  apply (needs_match (Ascii.eqb "|")); [reflexivity|]. apply (lacks_free "|"); [exact Hl|]. intros c Hc. apply Ascii.eqb_eq in Hc. subst c. now left.
Qed.

(** Delocalised internals *)
Lemma says_nil v l ws es : says v l ws es -> (forall w k, In (w, k) ws -> ~ mentions w l) -> es = [].
Proof. induction 1 as [|w k ws es Hm _ IH|w k ws es Hm _ IH]; intros Hn; [reflexivity| |]; [exfalso; apply (Hn w k); [now left|exact Hm]|]. apply IH. intros w' k' Hi. apply Hn with k'. now right. Qed.
Definition set_word (v : result pyval) (l : str) (wk : string * string) (d : dict) : result dict :=
  if contains ($(fst wk)) l then rmap (dset key_eqb d (kstr (snd wk))) v else Ok d.
Lemma set_word_says v l w k ws es d : says v l ((w, k) :: ws) es -> exists fs gs, es = fs ++ gs /\
  set_word (Ok v) l (w, k) d = Ok (dupdate key_eqb d fs) /\ says v l ws gs.
Proof.
  intros H. inversion H as [|? ? ? es' Hm H'|? ? ? es' Hm H']; subst; unfold set_word; cbn [fst snd].
  - apply mentions_iff in Hm. rewrite Hm. exists [(name k, v)], es'. split; [reflexivity|]. split; [reflexivity|exact H'].
  - rewrite (not_mentions_b _ _ Hm). exists [], es. split; [reflexivity|]. split; [reflexivity|exact H'].
Qed.
Lemma space_line l es d : space_row l es -> deloc_space_line d l = Ok (dupdate key_eqb d es).
Proof.
  intros [l' n ns es' Hn Hi Hs]. unfold deloc_space_line. rewrite (at_int _ _ 0 n Hn eq_refl Hi).
  destruct (set_word_says _ _ _ _ _ _ d Hs) as (f1 & g1 & -> & E1 & Hs1). unfold set_word in E1. cbn [fst snd] in E1. rewrite E1. cbn [bind].
  destruct (set_word_says _ _ _ _ _ _ (dupdate key_eqb d f1) Hs1) as (f2 & g2 & -> & E2 & Hs2). unfold set_word in E2. cbn [fst snd] in E2. rewrite E2. cbn [bind].
  destruct (set_word_says _ _ _ _ _ _ (dupdate key_eqb (dupdate key_eqb d f1) f2) Hs2) as (f3 & g3 & -> & E3 & Hs3). unfold set_word in E3. cbn [fst snd] in E3. rewrite E3.
  inversion Hs3. now rewrite app_nil_r, !upd_app.
Qed.
Lemma space_spec ls ess : laid space_row space_other ls ess -> exists d, process_deloc_act_space_table ls = Ok d /\ merged (concat ess) d.
Proof.
  intros H. rewrite <- (map_id ess), <- flat_map_concat_map. eapply laid_merged; [| |exact H].
  - intros l a d Ha. now apply space_line.
  - intros l d Ho. unfold deloc_space_line.
    rewrite (not_mentions_b _ _ (Ho "active space" "active_space_size" ltac:(cbn; tauto)))%string. cbn [bind].
    rewrite (not_mentions_b _ _ (Ho "degrees" "num_dof" ltac:(cbn; tauto)))%string. cbn [bind].
    now rewrite (not_mentions_b _ _ (Ho "primitive" "num_primitive_internals" ltac:(cbn; tauto)))%string.
Qed.
Lemma not_begins_b w l : ~ begins w l -> startswith ($w) l = false.
Proof. intros H. apply not_true_iff_false. now rewrite <- begins_iff. Qed.
Lemma begins_two l : begins " constraint" l -> ~ begins "Total number of primitive" l.
Proof. intros (r & ->) (r' & E). discriminate. Qed.
Lemma bare_strip w t : bare w t -> strip_by (Ascii.eqb ":") w = t.
Proof.
  assert (Hc : forall a, colons a -> forallb (Ascii.eqb ":") a = true).
  { intros a Ha. apply forallb_forall. intros c Hc. apply Ascii.eqb_eq. now rewrite (Ha c Hc). }
  intros (a & b & -> & Ha & Hb & Hf & Hl). destruct t as [|c t].
  - cbn [app]. apply strip_by_all. rewrite forallb_app. now rewrite !Hc.
  - apply strip_by_core; auto.
    + cbn. destruct (Ascii.eqb_spec ":" c) as [E|]; [|reflexivity]. exfalso. apply (Hf c t eq_refl). now symmetry.
    + unfold last_not. destruct (rev (c :: t)) as [|x u] eqn:E; [exact I|]. cbn. destruct (Ascii.eqb_spec ":" x) as [E'|]; [|reflexivity]. exfalso.
      apply (f_equal (@rev ascii)) in E. rewrite rev_involutive in E. apply (Hl (rev u) x E). now symmetry.
    + discriminate.
Qed.
Lemma deloc_line_row l r : deloc_row l r -> forall cm d, deloc_line (cm, d) l =
  Ok (dupdate key_eqb cm (deloc_map [r]), dupdate key_eqb d (deloc_counts [r])).
Proof.
  intros [l' k v Hb Hn Hk Hv|l' a b c e w n more t Hb Hc Hn Hi Ht] cm d; unfold deloc_line.
  - apply begins_iff in Hb. rewrite Hb, (get_numbers_line _ _ Hn). pose proof (Forall_wf _ (number_line_ok _ _ Hn)) as Hw.
    rewrite types_ints; [reflexivity|exact Hw|]. constructor; [exact Hk|]. constructor; [exact Hv|constructor].
  - assert (N : ~ begins " constraint" l') by (intros H; now apply (begins_two _ H)). rewrite (not_begins_b _ _ N). apply begins_iff in Hb. rewrite Hb.
    rewrite (split_cut _ _ Hc). cbn [skipn firstn]. rewrite py_int_num; [|now apply num_ok_wf|exact Hi]. cbn [bind]. now rewrite (bare_strip _ _ Ht).
Qed.
Lemma deloc_map_app a b : deloc_map (a ++ b) = deloc_map a ++ deloc_map b.
Proof. unfold deloc_map. now rewrite flat_map_app. Qed.
Lemma deloc_lines ls rows : laid deloc_row not_deloc ls rows -> forall cm d,
  foldM deloc_line ls (cm, d) = Ok (dupdate key_eqb cm (deloc_map rows), dupdate key_eqb d (deloc_counts rows)).
Proof.
  induction 1 as [|l r ls rs H _ IH|l ls rs H _ IH]; intros cm d; cbn [foldM].
  - reflexivity.
  - rewrite (deloc_line_row _ _ H). cbn [bind]. rewrite IH. rewrite <- !upd_app.
    change (r :: rs) with ([r] ++ rs). unfold deloc_counts, deloc_map. now rewrite !flat_map_app.
  - unfold deloc_line at 1. destruct H as [H1 H2]. rewrite (not_begins_b _ _ H1), (not_begins_b _ _ H2). cbn [bind]. apply IH.
Qed.
Lemma deloc_spec ls rows : laid deloc_row not_deloc ls rows -> exists cm d, merged (deloc_map rows) cm /\ merged (deloc_counts rows) d /\
  process_deloc_table ls = Ok ((name "constraint_mapping", VDict false cm) :: d).
Proof.
  intros H. unfold process_deloc_table. rewrite (deloc_lines _ _ H). cbn [bind]. eexists _, _.
  split; [|split; [|reflexivity]]; apply (merged_dict_of key_eqb key_eqb_spec).
Qed.

(** The line minimiser *)
Lemma wvfn_line_row l es d : wvfn_row l es -> wvfn_line d l = Ok (dupdate key_eqb d es).
Proof.
  unfold wvfn_line. intros [l' a b Hm Hn Hf|l' t ns Hm Ht Hb Hn Hf|l' t ns Hm Ht Hb Hn Hf];
    pose proof (Forall_wf _ (number_line_ok _ _ Hn)) as Hw.
  - apply mentions_iff in Hm. rewrite Hm, (get_numbers_line _ _ Hn), types_floats by assumption. reflexivity.
  - rewrite (not_mentions_b _ _ Hm), (trimmed_strip _ _ Ht). apply begins_iff in Hb. rewrite Hb. unfold numbers_as. rewrite (get_numbers_line _ _ Hn), tuple_fit by assumption. reflexivity.
  - rewrite (not_mentions_b _ _ Hm), (trimmed_strip _ _ Ht).
    assert (N : ~ begins "| step" t) by (destruct Hb as (r & ->); intros (r' & E); discriminate). rewrite (not_begins_b _ _ N).
    apply begins_iff in Hb. rewrite Hb. unfold numbers_as. rewrite (get_numbers_line _ _ Hn), tuple_fit by assumption. reflexivity.
Qed.
Lemma wvfn_spec ls ess : laid wvfn_row not_wvfn ls ess -> exists d, process_wvfn_line_min ls = Ok d /\ merged (concat ess) d.
Proof.
  intros H. rewrite <- (map_id ess), <- flat_map_concat_map. eapply laid_merged; [| |exact H].
  - intros l a d Ha. now apply wvfn_line_row.
  - intros l d (Hm & t & Ht & H1 & H2). unfold wvfn_line. now rewrite (not_mentions_b _ _ Hm), (trimmed_strip _ _ Ht), (not_begins_b _ _ H1), (not_begins_b _ _ H2).
Qed.

(** The dipole *)
Lemma total_none l : ~ mentions "Total" l -> re_search TOTAL_RE l = None.
Proof.
  intros H. destruct (re_search TOTAL_RE l) as [x|] eqn:E; [|reflexivity]. exfalso. unfold re_search in E.
  destruct (search_from TOTAL_RE None l) as [[pre y]|] eqn:E'; [|discriminate]. apply search_sound in E' as (s' & E1 & E2 & D). rewrite <- E2 in E1.
  destruct D as (p1 & s1 & c1 & D & _). apply den_lit in D as (Es & _). apply H. exists pre, s1. now rewrite E1, Es.
Qed.
Lemma total_some a g w r : free_of "T" a -> blanks g -> w <> [] -> (forall c, In c w -> word_char c) -> (forall c t, r = c :: t -> ~ word_char c) ->
  exists x, re_search TOTAL_RE (a ++ text_of "Total" ++ g ++ w ++ r) = Some x /\ group_s x "type" = w.
Proof.
  intros Ha Hg Hw0 Hw Hr. assert (Hw' : forallb is_word w = true) by (apply forallb_forall; intros c Hc; apply word_char_iff; auto).
  destruct (search_hit TOTAL_RE a (text_of "Total" ++ g ++ w) r [("type"%string, w)]) as (x & E & Hx).
  - apply skips_first; [reflexivity|]. apply forallb_forall. intros c Hc. destruct (first TOTAL_RE c) eqn:E; [|reflexivity]. exfalso.
    apply (Ha c Hc). cbn in E. rewrite !orb_false_r in E. apply Ascii.eqb_eq in E. subst c. now left.
  - unfold TOTAL_RE. cbn [RSeqs]. apply fp_seq with (c1 := []); [apply (fp_lit _ ($"Total"))|]. apply fp_seq with (c1 := []).
    + apply fp_star_chr; [now apply blanks_iff|]. destruct w as [|y w]; [congruence|]. cbn in *. apply andb_true_iff in Hw' as [Hy _]. now apply word_not_space.
    + apply fp_grp. apply fp_plus_chr; [exact Hw'|exact Hw0|]. destruct r as [|y r]; [exact I|]. cbn. specialize (Hr y r eq_refl).
      destruct (is_word y) eqn:W; [|reflexivity]. exfalso. apply Hr. now apply word_char_iff.
  - exists x. rewrite <- !app_assoc in E. split; [exact E|]. unfold group_s. rewrite Hx. reflexivity.
Qed.
Lemma dipole_item_step b fs : dipole_item b fs -> exists l r, b = l :: r /\ forall st more, dipole_step st l (r ++ more) = Ok (dupdate key_eqb st fs, more).
Proof.
  intros [a g w r n ns l El Ha Hg Hw0 Hw Hr Hn Hf|l l' ns H1 H2 H3 Hn Hf|l l' ns H1 H2 H3 Hn Hf|l n ns H1 H2 H3 Hn Hf|l ns H1 H2 H3 H4 Hn Hf|l H1 H2 H3 H4];
    eexists _, _; (split; [reflexivity|]); intros st more; unfold dipole_step; cbn [app];
    try (rewrite (total_none _ H1)); try (pose proof (Forall_wf _ (number_line_ok _ _ Hn)) as Hwf).
  - destruct (total_some a g w r Ha Hg Hw0 Hw Hr) as (x & E & Ex). rewrite <- El in E. rewrite E, (at_builtin _ _ 0 n Hn eq_refl Hf). cbn [bind]. now rewrite Ex.
  - apply mentions_iff in H2, H3. rewrite H2, H3. cbn [next_line bind]. unfold numbers_as. rewrite (get_numbers_line _ _ Hn), tuple_fit by assumption. reflexivity.
  - apply mentions_iff in H2. rewrite H2, (not_mentions_b _ _ H3). cbn [next_line bind]. unfold numbers_as. rewrite (get_numbers_line _ _ Hn), tuple_fit by assumption. reflexivity.
  - rewrite (not_mentions_b _ _ H2). apply mentions_iff in H3. rewrite H3, (at_float _ _ 0 n Hn eq_refl Hf). reflexivity.
  - rewrite (not_mentions_b _ _ H2), (not_mentions_b _ _ H3). apply mentions_iff in H4. rewrite H4. unfold numbers_as. rewrite (get_numbers_line _ _ Hn), tuple_fit by assumption. reflexivity.
  - now rewrite (not_mentions_b _ _ H2), (not_mentions_b _ _ H3), (not_mentions_b _ _ H4).
Qed.
Lemma dipole_spec ls es : in_turn dipole_item ls es -> exists d, process_dipole ls = Ok d /\ merged es d.
Proof. intros H. apply (turn_merged dipole_item); [exact dipole_item_step|exact H]. Qed.

(** Elastic properties *)
Lemma before_ok l k : SpecCastep2.before_colons l k -> CastepNum.before_colons l = k /\ mentions "::" l.
Proof.
  intros (v & -> & Hn). split; [|exists k, v; reflexivity]. revert Hn. induction k as [|c k IH]; intros Hn.
  - reflexivity.
  - cbn [app CastepNum.before_colons]. destruct (startswith ($"::") (c :: k ++ text_of "::" ++ v)) eqn:E.
    + exfalso. apply begins_iff in E as (r & E). apply Hn. destruct k as [|c' k].
      * injection E as -> _. exists [], []. reflexivity.
      * injection E as -> -> _. exists [], (k ++ [":"%char]). reflexivity.
    + f_equal. apply IH. intros (a & b & E'). apply Hn. exists (c :: a), b. cbn. now rewrite E'.
Qed.
Lemma filter_rows rows : filter (fun ns => negb (isempty ns)) (map (map write_num) rows) = map (map write_num) (numbers rows).
Proof. rewrite filter_map. f_equal. apply filter_ext. now intros [|n ns]. Qed.
Lemma sound_rows ls rows : Forall2 numbers_on ls rows -> Forall all_fit rows ->
  mapM (to_tuple TFloat) (numbered ls) = Ok (map vector (numbers rows)).
Proof.
  intros H Hf. unfold numbered. rewrite (numbers_lines _ _ H), filter_rows. apply mapM_map. intros ns Hi.
  apply filter_In in Hi as [Hi _]. pose proof (lines_wf _ _ H) as Hw. rewrite Forall_forall in Hw, Hf. apply tuple_fit; auto.
Qed.
Lemma elastic_item_step b fs : elastic_item b fs -> exists l r, b = l :: r /\ forall st more, elastic_prop_step st l (r ++ more) = Ok (dupdate key_eqb st fs, more).
Proof.
  intros [l k nm ns Hk Hnm Hn Hf|l body e rows H1 H2 Hb He Hr Hf|l H1 H2]; eexists _, _; (split; [reflexivity|]); intros st more; unfold elastic_prop_step; cbn [app].
  - destruct (before_ok _ _ Hk) as [E Hm]. apply mentions_iff in Hm. rewrite Hm, (get_numbers_line _ _ Hn), types_floats; [|apply Forall_wf, (number_line_ok _ _ Hn)|exact Hf].
    cbn [bind]. rewrite E, (named_key _ _ Hnm). destruct ns as [|n [|n' ns]]; reflexivity.
  - rewrite (not_mentions_b _ _ H1). apply mentions_iff in H2. unfold if_block, l_from_re. rewrite H2. cbn [negb].
    rewrite <- app_assoc. cbn [app]. rewrite (scan_blank _ _ _ Hb He). cbn [orb].
    assert (L : l_bool (l :: body ++ [e]) = true).
    { unfold l_bool. cbn [existsb]. apply orb_true_iff. left. destruct (isempty (strip l)) eqn:Es; [|reflexivity]. exfalso.
      apply strip_empty, blanks_iff in Es. apply mentions_iff in H2 as (u & v & ->). rewrite forallb_app in Es. apply andb_true_iff in Es as [_ Es].
      rewrite forallb_app in Es. apply andb_true_iff in Es as [Es _]. discriminate. }
    rewrite L, (sound_rows _ _ Hr Hf). reflexivity.
  - rewrite (not_mentions_b _ _ H1). now rewrite (if_block_no "Speed of Sound").
Qed.
Lemma elastic_properties_spec ls es : in_turn elastic_item ls es -> exists d, process_elastic_properties ls = Ok d /\ merged es d.
Proof. intros H. apply (turn_merged elastic_item); [exact elastic_item_step|exact H]. Qed.

(** Build information *)
Lemma split_first_cut c k v : ~ In c k -> split_first c (k ++ c :: v) = Ok (k, v).
Proof.
  induction k as [|x k IH]; intros H; cbn [app split_first].
  - now rewrite Ascii.eqb_refl.
  - destruct (Ascii.eqb_spec x c) as [->|]; [exfalso; apply H; now left|]. rewrite IH; [reflexivity|]. intros Hi. apply H. now right.
Qed.
Lemma words_string s t : words_of s t -> normalise_string s = t.
Proof. intros (ws & H & ->). apply (normalise_string_cut _ _ H). Qed.
Lemma cut_words ws s : cut nonblank ws s -> Forall (fun w => w <> [] /\ forall c, In c w -> is_space c = false) ws.
Proof.
  induction 1 as [g Hg|g w s ws Hg Hne Hw Hs _ IH]; constructor; [|exact IH]. split; [exact Hne|]. intros c Hc. specialize (Hw c Hc).
  apply nonblank_iff in Hw. now apply negb_true_iff in Hw.
Qed.
Lemma joined_last ws w : exists u, joined ($" ") (ws ++ [w]) = u ++ w.
Proof.
  induction ws as [|x ws (u & IH)]; [exists []; reflexivity|]. cbn [app joined].
  destruct (ws ++ [w]) as [|y q] eqn:E; [destruct ws; discriminate|]. exists (x ++ $" " ++ u). rewrite IH. now rewrite <- !app_assoc.
Qed.
Lemma words_strip s t : words_of s t -> strip t = t.
Proof.
  intros (ws & H & ->). pose proof (cut_words _ _ H) as Hw. unfold strip. apply strip_by_id.
  - destruct Hw as [|w ws [Hne Hw] _]; [exact I|]. destruct w as [|c w]; [congruence|]. cbn [joined]. destruct ws; cbn; apply Hw; now left.
  - destruct ws as [|w ws _] using rev_ind; [exact I|]. apply Forall_app in Hw as [_ Hw]. inversion Hw as [|? ? [Hne Hc] _]; subst.
    destruct (joined_last ws w) as (u & E). change (text_of " ") with ($" "). rewrite E. unfold last_not. rewrite rev_app_distr.
    destruct (rev w) as [|c q] eqn:Er; [apply (f_equal (@rev ascii)) in Er; rewrite rev_involutive in Er; now subst w|]. cbn. apply Hc. apply in_rev. rewrite Er. now left.
Qed.
Lemma chr_in_iff c s : chr_in c s = true <-> In c s.
Proof. unfold chr_in. rewrite existsb_exists. split; [intros (x & Hx & E); apply Ascii.eqb_eq in E; now subst x|intros H; exists c; split; [exact H|apply Ascii.eqb_refl]]. Qed.
Lemma build_line_row l e d : build_row l e -> build_line d l = Ok (dupdate key_eqb d [e]).
Proof.
  intros [k v k' nm t Hk Hk' Hnm Ht]. unfold build_line. assert (chr_in ":" (k ++ ":"%char :: v) = true) as -> by (apply chr_in_iff, in_or_app; right; now left).
  rewrite (split_first_cut _ _ _ Hk). cbn [bind]. rewrite (words_string _ _ Hk'), (named_key _ _ Hnm), (words_string _ _ Ht), (words_strip _ _ Ht). reflexivity.
Qed.
Lemma buildinfo_spec l1 l2 ls s1 s2 es : words_of l1 s1 -> words_of l2 s2 -> laid build_row not_build ls es ->
  exists d, process_buildinfo (l1 :: l2 :: ls) = Ok d /\ merged ((name "summary", VStr (s1 ++ " "%char :: s2)) :: es) d.
Proof.
  intros H1 H2 H. unfold process_buildinfo. cbn [skipn firstn map]. rewrite (words_string _ _ H1), (words_string _ _ H2).
  rewrite (laid_fold build_row not_build build_line (fun e => [e]) ls es) with (3 := H).
  - eexists. split; [reflexivity|]. rewrite flat_one.
    replace (s1 ++ " "%char :: s2) with (join ($" ") [s1; s2]) by reflexivity.
    exact (dict_of_merged ((kstr "summary", VStr (join ($" ") [s1; s2])) :: es)).
  - intros l e d He. now apply build_line_row.
  - intros l d Hl. unfold build_line. destruct (chr_in ":" l) eqn:E; [|reflexivity]. exfalso. now apply Hl, chr_in_iff.
Qed.
