(** Facts about the parts of block files: tables, gradients. *)
From Coq Require Import QArith Qreduction.
From Verif Require Import PyBase PyFacts PyVal Regex RegexFacts RegexComplete CastepRes NumSpec NumFacts NumProps
  StrUtil SpecStr StrUtilFacts SpecLine SpecType TypeConv TypeConvFacts IntStr DictUtil SpecDict DictFacts Stream StreamFacts
  SpecTable ColumnFacts TextParsers TextParsersFacts Header HeaderFacts SpecMd MdFacts SpecBands BandsFacts NeedFacts SpecCastep CastepBlocks CastepFacts
  SpecFiles TextFiles FileFacts.
From Verif Require CellFacts CellPosFacts CellBlockFacts.
Local Open Scope list_scope.
Local Open Scope nat_scope.

(** ** The loop over a file *)
Lemma file_loop_more {A} (step : A -> str -> list str -> result (A * list str)) n st ls :
  (forall st l rest st' rest', step st l rest = Ok (st', rest') -> length rest' <= length rest) ->
  length ls <= n -> file_loop step n st ls = file_loop step (length ls) st ls.
Proof.
  intros Hs. assert (G : forall n m ls st, length ls <= n -> length ls <= m -> file_loop step n st ls = file_loop step m st ls).
  { clear n st ls. induction n as [|n IH]; intros m ls st Hn Hm; destruct ls as [|l ls]; cbn in Hn; try lia.
    - now destruct m.
    - now destruct m.
    - destruct m as [|m]; [cbn in Hm; lia|]. cbn [file_loop]. destruct (step st l ls) as [[st' rest']|e] eqn:E; [|reflexivity].
      cbn [bind]. apply Hs in E. apply IH; cbn in Hm; lia. }
  intros H. apply G; lia.
Qed.
Lemma delimited_block s e l body l' rest : delimited s e l body l' -> strip (text_of s) <> [] -> l_from_re l (body ++ l' :: rest) (contains ($s)) (contains ($e)) 1 false =
  (Ok (l :: body ++ [l']), rest) /\ l_bool (l :: body ++ [l']) = true.
Proof.
  intros (H1 & H2 & H3) Hn. unfold l_from_re. pose proof (proj1 (mentions_iff _ _) H1) as H1'. rewrite H1'. cbn [negb].
  apply mentions_iff in H3. rewrite l_scan_first; [|apply forallb_forall; intros x Hx; rewrite Forall_forall in H2; specialize (H2 x Hx);
    now rewrite (not_true _ _ (mentions_iff _ _) H2)|exact H3].
  cbn [orb]. split; [reflexivity|]. unfold l_bool. cbn [existsb]. apply orb_true_iff. left. apply negb_true_iff.
  destruct (isempty (strip l)) eqn:E; [|reflexivity]. exfalso. apply strip_empty in E. destruct H1 as (a & b & ->).
  unfold blanks in E. rewrite !Forall_app in E. destruct E as (_ & E & _). fold (text_of s) in E. apply strip_empty in E. apply Hn.
  destruct (strip (text_of s)); [reflexivity|discriminate].
Qed.
Lemma if_block_yes {B} s e l body l' rest (yes : list str -> list str -> result B) no : delimited s e l body l' -> strip (text_of s) <> [] ->
  if_block l (body ++ l' :: rest) (contains ($s)) (contains ($e)) 1 false yes no = yes (l :: body ++ [l']) rest.
Proof. intros H Hn. unfold if_block. destruct (delimited_block s e l body l' rest H Hn) as [-> ->]. reflexivity. Qed.
Lemma if_block_no {B} s endp l rest n eof (yes : list str -> list str -> result B) no : ~ mentions s l ->
  if_block l rest (contains ($s)) endp n eof yes no = no rest.
Proof. intros H. unfold if_block, l_from_re. rewrite (not_true _ _ (mentions_iff _ _) H). reflexivity. Qed.
(** The block's steps never put lines back. *)
Lemma scan_len endp n f ls : forall d b r, l_scan endp n f ls = (d, b, r) -> length r <= length ls.
Proof.
  revert f. induction ls as [|l ls IH]; intros f d b r H; cbn [l_scan] in H; [injection H as <- <- <-; cbn; lia|].
  destruct (endp l); [destruct (S f =? n)|].
  - injection H as <- <- <-. cbn. lia.
  - destruct (l_scan endp n (S f) ls) as [[d' b'] r'] eqn:E. injection H as <- <- <-. apply IH in E. cbn. lia.
  - destruct (l_scan endp n f ls) as [[d' b'] r'] eqn:E. injection H as <- <- <-. apply IH in E. cbn. lia.
Qed.
Lemma from_re_len init ls sp ep n eof : length (snd (l_from_re init ls sp ep n eof)) <= length ls.
Proof.
  unfold l_from_re. destruct (negb (sp init)); cbn; [lia|]. destruct (l_scan ep n 0 ls) as [[d b] r] eqn:E. apply scan_len in E.
  destruct (b || eof); cbn; lia.
Qed.
Lemma if_block_len {A} l rest sp ep n eof (yes : list str -> list str -> result (A * list str)) (no : list str -> result (A * list str)) (st : A) rest' :
  (forall b r st' r', yes b r = Ok (st', r') -> length r' <= length r) ->
  (forall r st' r', no r = Ok (st', r') -> length r' <= length r) ->
  if_block l rest sp ep n eof yes no = Ok (st, rest') -> length rest' <= length rest.
Proof.
  intros Hy Hn. unfold if_block. pose proof (from_re_len l rest sp ep n eof) as L. destruct (l_from_re l rest sp ep n eof) as [[b|e] r]; [|discriminate].
  cbn in L. destruct (l_bool b); intros H; [apply Hy in H|apply Hn in H]; lia.
Qed.
Ltac same_rest := intros; repeat match goal with H : bind ?x _ = Ok _ |- _ => let E := fresh in destruct x as [?|?] eqn:E; cbn [bind] in H; [|discriminate] end;
  match goal with H : Ok _ = Ok _ |- _ => injection H as <- <-; lia end.

(** ** Appending under keys *)
Definition appends (d : dict) (es : list (key * pyval)) : result dict := foldM (fun d e => append_to d (fst e) (snd e)) es d.
Lemma appends_app d a b : appends d (a ++ b) = (d' <- appends d a ;; appends d' b).
Proof. apply foldM_split. Qed.
Lemma column_single_app {V} k (a b : list (key * V)) vs ws : SpecDict.column k (map (fun x => [x]) a) vs -> SpecDict.column k (map (fun x => [x]) b) ws ->
  SpecDict.column k (map (fun x => [x]) (a ++ b)) (vs ++ ws).
Proof.
  revert vs. induction a as [|e a IH]; intros vs H H'; cbn in *; inversion H; subst; cbn; [exact H'|now constructor; [|apply IH]|].
  apply col_skip; auto.
Qed.
Definition values_of {V} (k : key) (es : list (key * V)) : list V := flat_map (fun e => if key_eqb (fst e) k then [snd e] else []) es.
Lemma column_values {V} k (es : list (key * V)) vs : SpecDict.column k (map (fun x => [x]) es) vs <-> vs = values_of k es.
Proof.
  revert vs. induction es as [|[k' v] es IH]; intros vs; cbn.
  - split; [now inversion 1|intros ->; constructor].
  - destruct (key_eqb k' k) eqn:E.
    + apply key_eqb_eq in E. subst. split.
      * inversion 1 as [|? ? v' ? He Hc|? ? ? Ha Hc]; subst; [|exfalso; apply Ha; now left].
        destruct He as [He|[]]. injection He as ->. cbn. f_equal. now apply IH.
      * intros ->. cbn. constructor; [now left|now apply IH].
    + assert (N : k' <> k) by (intros ->; rewrite key_eqb_refl' in E; discriminate). split.
      * inversion 1 as [|? ? v' ? He Hc|? ? ? Ha Hc]; subst; [destruct He as [He|[]]; injection He as -> _; congruence|]. now apply IH.
      * intros ->. apply col_skip; [|now apply IH]. intros [H|[]]. cbn in H. congruence.
Qed.
Lemma dset_in {V} (d : list (key * V)) k v k' v' : NoDup (map fst d) ->
  In (k', v') (dset key_eqb d k v) <-> (k' = k /\ v' = v) \/ (k' <> k /\ In (k', v') d).
Proof.
  intros Hn. pose proof (dset_nodup key_eqb key_eqb_spec d k v Hn) as Hn'. split.
  - intros H. apply (dget_nodup key_eqb key_eqb_spec _ _ _ Hn') in H. rewrite (dget_dset key_eqb key_eqb_spec) in H.
    destruct (key_eqb k k') eqn:E; [apply key_eqb_eq in E; left; split; congruence|]. right. split; [intros ->; rewrite key_eqb_refl' in E; discriminate|].
    now apply (dget_in key_eqb key_eqb_spec).
  - intros H. apply (dget_in key_eqb key_eqb_spec). rewrite (dget_dset key_eqb key_eqb_spec). destruct H as [[-> ->]|[Hne H]].
    + now rewrite key_eqb_refl'.
    + destruct (key_eqb k k') eqn:E; [apply key_eqb_eq in E; congruence|]. now apply (dget_nodup key_eqb key_eqb_spec).
Qed.
Lemma gathered_step d0 es d k v : absent d0 k -> gathered d0 es d -> exists d', append_to d k v = Ok d' /\ gathered d0 (es ++ [(k, v)]) d'.
Proof.
  intros Hk [Hd Hin].
  assert (Vs : forall k', values_of k' (es ++ [(k, v)]) = values_of k' es ++ (if key_eqb k k' then [v] else [])).
  { intros k'. unfold values_of. rewrite flat_map_app. cbn. now rewrite app_nil_r. }
  unfold append_to. destruct (dget key_eqb d k) as [w|] eqn:G.
  + pose proof G as G'. apply (dget_in key_eqb key_eqb_spec) in G'. apply Hin in G' as [G'|(vs & Hv & -> & Hc)].
    { exfalso. apply Hk. apply in_map_iff. exists (k, w). auto. }
    eexists. split; [reflexivity|]. split; [apply (dset_nodup key_eqb key_eqb_spec); exact Hd|].
    intros k' v'. rewrite dset_in by exact Hd. apply column_values in Hc. subst vs. split.
    * intros [[-> ->]|[Hne H]].
      -- right. exists (values_of k es ++ [v]). split; [now destruct (values_of k es)|]. split; [reflexivity|].
         apply column_values. now rewrite Vs, key_eqb_refl'.
      -- apply Hin in H as [H|(vs & H1 & H2 & H3)]; [now left|]. right. exists vs. repeat split; auto. apply column_values. apply column_values in H3.
         rewrite Vs, H3. destruct (key_eqb k k') eqn:Q; [apply key_eqb_eq in Q; congruence|now rewrite app_nil_r].
    * intros [H|(vs & H1 & -> & H3)].
      -- right. split; [|apply Hin; now left]. intros ->. apply Hk. apply in_map_iff. exists (k, v'). auto.
      -- apply column_values in H3. rewrite Vs in H3. destruct (key_eqb k k') eqn:Q.
         ++ apply key_eqb_eq in Q. left. subst. auto.
         ++ right. split; [intros ->; rewrite key_eqb_refl' in Q; discriminate|]. apply Hin. right. exists vs. rewrite app_nil_r in H3.
            repeat split; auto. now apply column_values.
  + eexists. split; [reflexivity|]. split; [apply (dset_nodup key_eqb key_eqb_spec); exact Hd|].
    assert (E0 : values_of k es = []).
    { destruct (values_of k es) as [|x l] eqn:Q; [reflexivity|]. exfalso. apply (dget_none key_eqb key_eqb_spec) in G. apply G.
      apply in_map_iff. exists (k, VList (x :: l)). split; [reflexivity|]. apply Hin. right. exists (x :: l). repeat split; [discriminate|]. now apply column_values. }
    intros k' v'. rewrite dset_in by exact Hd. split.
    * intros [[-> ->]|[Hne H]].
      -- right. exists [v]. split; [discriminate|]. split; [reflexivity|]. apply column_values. now rewrite Vs, key_eqb_refl', E0.
      -- apply Hin in H as [H|(vs & H1 & H2 & H3)]; [now left|]. right. exists vs. repeat split; auto. apply column_values. apply column_values in H3.
         rewrite Vs, H3. destruct (key_eqb k k') eqn:Q; [apply key_eqb_eq in Q; congruence|now rewrite app_nil_r].
    * intros [H|(vs & H1 & -> & H3)].
      -- right. split; [|apply Hin; now left]. intros ->. apply Hk. apply in_map_iff. exists (k, v'). auto.
      -- apply column_values in H3. rewrite Vs in H3. destruct (key_eqb k k') eqn:Q.
         ++ apply key_eqb_eq in Q. left. subst. now rewrite E0.
         ++ right. split; [intros ->; rewrite key_eqb_refl' in Q; discriminate|]. apply Hin. right. exists vs. rewrite app_nil_r in H3.
            repeat split; auto. now apply column_values.
Qed.
Lemma appends_gathered d0 es : NoDup (map fst d0) -> (forall k, In k (map fst es) -> absent d0 k) ->
  exists d, appends d0 es = Ok d /\ gathered d0 es d.
Proof.
  intros Hn. induction es as [|[k v] es IH] using rev_ind; intros Ha.
  - exists d0. split; [reflexivity|]. split; [exact Hn|]. intros k v. split; [now left|]. intros [H|(vs & Hv & -> & Hc)]; [exact H|].
    inversion Hc; subst. congruence.
  - assert (Ha' : forall k, In k (map fst es) -> absent d0 k) by (intros k' H; apply Ha; rewrite map_app; apply in_app_iff; now left).
    destruct (IH Ha') as (d & E & Hg). rewrite appends_app, E. cbn [bind]. unfold appends. cbn [foldM fst snd].
    assert (Hk : absent d0 k) by (apply Ha; rewrite map_app; apply in_app_iff; right; now left).
    destruct (gathered_step d0 es d k v Hk Hg) as (d' & -> & Hg'). cbn [bind]. eauto.
Qed.

(** ** Tables *)
Lemma skip_bounds l body (x l' : str) : l_remove_bounds 1 2 (l :: (body ++ [x]) ++ [l']) = body.
Proof.
  unfold l_remove_bounds. rewrite <- app_assoc. cbn [app length skipn]. rewrite app_length. cbn [length].
  replace (S (length body + 2) - 2) with (S (length body)) by lia. cbn [firstn]. rewrite firstn_app, Nat.sub_diag, firstn_all. cbn. now rewrite app_nil_r.
Qed.
Definition table_row (r : re) (names : list string) (l : str) (ns : list num) : Prop :=
  exists x, re_match r l = Some x /\ groupdict r x = combine (map kstr names) (map (fun n => VStr (write_num n)) ns).
Lemma stack_rows r names body rows : NoDup (map kstr names) -> Forall2 (table_row r names) body rows -> Forall (fun ns => length ns = length names) rows ->
  foldM (stack_row r) body [] =
  Ok (match rows with [] => [] | _ => combine (map kstr names) (cols_of (length names) (map (map (fun n => VStr (write_num n))) rows)) end).
Proof.
  intros Hn H Hl.
  assert (E : forall d, foldM (stack_row r) body d =
     foldM (fun d row => stack_dict true d (combine (map kstr names) row)) (map (map (fun n => VStr (write_num n))) rows) d).
  { clear Hl. induction H as [|l ns body rows (x & Ex & Eg) _ IH]; intros d; [reflexivity|]. cbn [foldM map]. unfold stack_row at 1. rewrite Ex, Eg.
    destruct (stack_dict true d _); [|reflexivity]. cbn [bind]. apply IH. }
  rewrite E, stack_same; [|exact Hn|].
  - rewrite map_length. destruct rows; reflexivity.
  - apply Forall_forall. intros row Hr. apply in_map_iff in Hr as (ns & <- & Hi). rewrite Forall_forall in Hl. now rewrite !map_length, Hl.
Qed.
Lemma col_nth {A} (rows : list (list A)) j : col rows j = nth_column j rows.
Proof. reflexivity. Qed.
Lemma nth_column_map {A B} (f : A -> B) j rows : nth_column j (map (map f) rows) = map f (nth_column j rows).
Proof.
  unfold nth_column. induction rows as [|r rows IH]; [reflexivity|]. cbn [map flat_map]. rewrite map_app, IH. f_equal.
  rewrite nth_error_map. now destruct (nth_error r j).
Qed.
Lemma nth_column_in {A} (rows : list (list A)) j x : In x (nth_column j rows) -> exists r, In r rows /\ In x r.
Proof.
  unfold nth_column. rewrite in_flat_map. intros (r & Hr & Hx). exists r. split; [exact Hr|].
  destruct (nth_error r j) as [y|] eqn:E; [|destruct Hx]. destruct Hx as [<-|[]]. now apply nth_error_In in E.
Qed.
Lemma columns_named_combine names rows : forall j, columns_named j (map text_of names) rows =
  combine (map kstr names) (map (fun j => vector (nth_column j rows)) (seq j (length names))).
Proof. induction names as [|n names IH]; intros j; [reflexivity|]. cbn [map columns_named length seq combine]. now rewrite IH. Qed.
Lemma table_kept info k names rows : NoDup (map kstr names) ->
  Forall (Forall (fun n => num_wf n /\ fits (num_value n))) rows ->
  keep_table info k (map kstr names) (match rows with [] => [] | _ => combine (map kstr names) (cols_of (length names) (map (map (fun n => VStr (write_num n))) rows)) end) =
  match rows, names with [], _ => Ok info | _, [] => Ok info | _, _ => append_to info k (table (map text_of names) rows) end.
Proof.
  intros Hn Hf. destruct rows as [|r0 rows']; [reflexivity|]. destruct names as [|n0 names']; [reflexivity|].
  set (rows := r0 :: rows') in *. set (names := n0 :: names') in *. unfold keep_table.
  assert (E : exists e l, combine (map kstr names) (cols_of (length names) (map (map (fun n => VStr (write_num n))) rows)) = e :: l) by (cbn; eauto).
  destruct E as (e & l & E). rewrite E. rewrite <- E. clear e l E. rewrite lists_combine, map_map.
  replace (map (fun x => (kstr x, TFloat)) names) with (map (fun k => (k, TFloat)) (map kstr names)) by (now rewrite map_map).
  rewrite (fix_keys _ _ _ (map (fun j => vector (nth_column j rows)) (seq 0 (length names)))).
  - cbn [bind]. unfold table. now rewrite columns_named_combine.
  - now rewrite !map_length, cols_of_len.
  - exact Hn.
  - unfold cols_of. rewrite map_map. generalize (seq 0 (length names)). induction l as [|j l IH]; [constructor|]. cbn [map]. constructor; [|exact IH].
    rewrite col_nth, nth_column_map. cbn [to_type]. rewrite (mapM_map _ _ fval); [reflexivity|].
    intros n Hi. apply nth_column_in in Hi as (r & Hr & Hi). rewrite Forall_forall in Hf. specialize (Hf r Hr). rewrite Forall_forall in Hf.
    destruct (Hf n Hi). now apply to_float.
Qed.
Lemma row_groups names ns c0 : NoDup names -> length names = length ns -> 
  map (fun l => opt_val (cap (row_caps names ns c0) l)) names = map (fun n => VStr (write_num n)) ns.
Proof.
  revert ns c0. induction names as [|l names IH]; intros [|n ns] c0 Hn Hl; try discriminate; [reflexivity|]. cbn [map row_caps].
  inversion Hn as [|? ? H1 H2]; subst. f_equal.
  - assert (G : forall names ns c, ~ In l names -> cap c l = Some (write_num n) -> cap (row_caps names ns c) l = Some (write_num n)).
    { clear. induction names as [|l' names IH]; intros [|n' ns] c H E; cbn [row_caps]; auto. apply IH; [intros Q; apply H; now right|].
      cbn. destruct (String.eqb l' l) eqn:Q; [apply String.eqb_eq in Q; subst; exfalso; apply H; now left|exact E]. }
    rewrite G; [reflexivity|exact H1|]. cbn. now rewrite String.eqb_refl.
  - apply IH; [exact H2|]. now injection Hl.
Qed.
Lemma group_names_seqs rs : group_names (RSeqs rs) = flat_map group_names rs.
Proof.
  induction rs as [|r rs IH]; [reflexivity|]. destruct rs as [|r' rs]; [cbn; now rewrite app_nil_r|].
  change (RSeqs (r :: r' :: rs)) with (RSeq r (RSeqs (r' :: rs))). cbn [group_names]. rewrite IH. reflexivity.
Qed.
Lemma group_names_labelled names : group_names (labelled_floats names) = names.
Proof.
  unfold labelled_floats, labelled_floats_gen. rewrite group_names_seqs, map_map. induction names as [|n names IH]; [reflexivity|]. cbn [map flat_map]. rewrite IH. reflexivity.
Qed.
Lemma combine_map_fun {A B C} (f : A -> B) (g : A -> C) l : combine (map f l) (map g l) = map (fun x => (f x, g x)) l.
Proof. induction l; cbn; congruence. Qed.
Lemma num_row_table names l ns : NoDup names -> num_row (length names) l ns -> table_row (labelled_floats names) names l ns.
Proof.
  intros Hn [t s ns' Ht Hl Hs Hf]. unfold table_row, re_match.
  rewrite (fp_match_at _ _ _ _ _ (fp_labelled names ns' t None s [] Ht (eq_sym Hl) Hs)). eexists. split; [reflexivity|].
  unfold groupdict. rewrite group_names_labelled. cbn [m_caps]. rewrite <- (row_groups names ns' []) by auto. rewrite combine_map_fun. reflexivity.
Qed.
Lemma num_row_ok k l ns : num_row k l ns -> length ns = k /\ Forall (fun n => num_wf n /\ fits (num_value n)) ns.
Proof.
  intros [t s ns' Ht Hl Hs Hf]. split; [exact Hl|]. apply columns_ok, Forall_wf in Ht. unfold all_fit in Hf. rewrite Forall_forall in *. auto.
Qed.
Lemma kstr_nodup names : NoDup names -> NoDup (map kstr names).
Proof.
  intros H. apply FinFun.Injective_map_NoDup; [|exact H]. intros a b E. injection E as E.
  rewrite <- (string_of_list_ascii_of_string a), <- (string_of_list_ascii_of_string b). now f_equal.
Qed.

(** ** .efield *)
Lemma snd_nodup : NoDup ("freq" :: SND_D)%string.
Proof. repeat constructor; cbn; intuition discriminate. Qed.
Lemma int_row_table l r : int_row 6 l r -> table_row OSCILLATOR_RE ("freq" :: SND_D)%string l (fst r :: snd r).
Proof.
  intros [a i t s ns Ha Hi Hw Ht Hl Hs Hf Hfi]. unfold table_row, re_match. cbn [fst snd]. destruct (int_write _ Hi Hw) as [Ei Hi0].
  pose proof (proj1 (blanks_iff _) Ha) as Ha'.
  assert (TT : token_end (t ++ s)) by (eapply columns_hd; eassumption).
  assert (F : fp OSCILLATOR_RE None (concat [a; write_num i; t]) s [] (row_caps SND_D ns [("freq"%string, write_num i)])).
  { unfold OSCILLATOR_RE. apply fp_seqs. eapply fpl_cons; [|eapply fpl_cons; [|eapply fpl_cons; [|apply fpl_nil]]].
    - apply fp_star_chr; [exact Ha'|]. cbn [concat]. rewrite <- !app_assoc. apply num_hd. now apply int_num_ok.
    - apply fp_grp. rewrite Ei. apply fp_INT; [exact Hi0| |].
      + cbn [concat]. rewrite app_nil_r. destruct (t ++ s) as [|y z]; [exact I|].
        specialize (TT y z eq_refl). apply blank_iff in TT. cbn. pose proof (space_not_mant_e _ TT) as Q. apply orb_false_iff in Q. apply Q.
      + intros _. intros E. apply (blank_last _ _ Ha') in E. discriminate.
    - cbn [concat]. apply fp_labelled; [exact Ht|now rewrite Hl|exact Hs]. }
  assert (E : a ++ write_num i ++ t ++ s = concat [a; write_num i; t] ++ s) by (cbn [concat]; rewrite app_nil_r, <- !app_assoc; reflexivity).
  rewrite E, (fp_match_at _ _ _ _ _ F). eexists. split; [reflexivity|]. unfold groupdict. cbn [m_caps].
  do 6 (destruct ns as [|? ns]; [discriminate Hl|]). destruct ns; [|discriminate Hl]. reflexivity.
Qed.
Lemma efield_table_spec k r (R : list ascii -> list num -> Prop) info l body x l' rows :
  (forall l ns, R l ns -> table_row r ("freq" :: SND_D)%string l ns /\ length ns = 7 /\ Forall (fun n => num_wf n /\ fits (num_value n)) ns) ->
  Forall2 R body rows ->
  efield_table (kstr k) r info (l :: (body ++ [x]) ++ [l']) = appends info (match rows with [] => [] | _ => [named k (table field_names rows)] end).
Proof.
  intros HR H. unfold efield_table. rewrite skip_bounds.
  rewrite (stack_rows r ("freq" :: SND_D)%string body rows).
  - cbn [bind]. rewrite table_kept.
    + destruct rows; [reflexivity|]. unfold appends. cbn [foldM fst snd]. destruct (append_to _ _ _); reflexivity.
    + apply kstr_nodup, snd_nodup.
    + induction H as [|? ? ? ? H0 _ IH]; constructor; auto. apply (HR _ _ H0).
  - apply kstr_nodup, snd_nodup.
  - induction H as [|? ? ? ? H0 _ IH]; constructor; auto. apply (HR _ _ H0).
  - induction H as [|? ? ? ? H0 _ IH]; constructor; auto. apply (HR _ _ H0).
Qed.
Ltac blocks_len := repeat (refine (if_block_len _ _ _ _ _ _ _ _ _ _ _ _); [same_rest|intros ? ? ?]); same_rest.
Lemma efield_step_len st l rest st' rest' : efield_step st l rest = Ok (st', rest') -> length rest' <= length rest.
Proof. unfold efield_step. blocks_len. Qed.
Lemma Forall2_map_r {A B C} (R : A -> C -> Prop) (f : B -> C) l l' : Forall2 (fun a b => R a (f b)) l l' -> Forall2 R l (map f l').
Proof. induction 1; cbn; constructor; auto. Qed.
Lemma efield_parts_loop ls ps : efield_parts ls ps -> forall n info, length ls <= n ->
  file_loop efield_step n info ls = appends info (flat_map efield_entry ps).
Proof.
  induction 1 as [|l ls ps N1 N2 N3 _ IH|l body x l' rows ls ps N1 D F _ IH|l body x l' rows ls ps N1 N2 D F _ IH]; intros n info Hn.
  - now destruct n.
  - destruct n as [|n]; [cbn in Hn; lia|]. cbn [file_loop]. unfold efield_step at 1.
    rewrite !if_block_no by assumption. cbn [bind]. apply IH. cbn in Hn. lia.
  - destruct n as [|n]; [cbn in Hn; lia|]. cbn [file_loop]. unfold efield_step at 1. rewrite if_block_no by assumption.
    change (body ++ x :: l' :: ls) with (body ++ [x] ++ l' :: ls). rewrite app_assoc, (if_block_yes _ _ _ _ _ _ _ _ D) by discriminate.
    rewrite (efield_table_spec _ _ (fun l ns => exists r, int_row 6 l r /\ ns = fst r :: snd r) _ _ _ _ _ (map (fun r => fst r :: snd r) rows)).
    + cbn [flat_map]. rewrite appends_app.
      replace (appends info (efield_entry (Oscillators rows))) with
        (appends info (match map (fun r => fst r :: snd r) rows with [] => [] | _ => [named "oscillator_strengths" (table field_names (map (fun r => fst r :: snd r) rows))] end)) by (now destruct rows).
      destruct (appends info _) as [d|e]; [|reflexivity]. cbn [bind]. apply IH. cbn in Hn. rewrite app_length in Hn. cbn in Hn. lia.
    + intros l0 ns (r & Hr & ->). split; [now apply int_row_table|]. destruct Hr as [a i t s ns Ha Hi Hw Ht Hl Hs Hf Hfi]. cbn. split; [lia|].
      constructor; [auto|]. apply columns_ok, Forall_wf in Ht. unfold all_fit in Hf. rewrite Forall_forall in *. auto.
    + apply Forall2_map_r. clear -F. induction F; constructor; eauto.
  - destruct n as [|n]; [cbn in Hn; lia|]. cbn [file_loop]. unfold efield_step at 1. rewrite !if_block_no by assumption.
    change (body ++ x :: l' :: ls) with (body ++ [x] ++ l' :: ls). rewrite app_assoc, (if_block_yes _ _ _ _ _ _ _ _ D) by discriminate.
    rewrite (efield_table_spec _ _ (num_row 7) _ _ _ _ _ rows).
    + cbn [flat_map]. rewrite appends_app.
      replace (appends info (efield_entry (Permittivities rows))) with
        (appends info (match rows with [] => [] | _ => [named "permittivity" (table field_names rows)] end)) by (now destruct rows).
      destruct (appends info _) as [d|e]; [|reflexivity]. cbn [bind]. apply IH. cbn in Hn. rewrite app_length in Hn. cbn in Hn. lia.
    + intros l0 ns Hr. split; [apply num_row_table; [exact snd_nodup|exact Hr]|]. exact (num_row_ok _ _ _ Hr).
    + exact F.
Qed.

(** A header at the start of a file *)
Lemma header_block_text extra its hd : header_block extra its hd -> exists l body l', hd = l :: body ++ [l'] /\
  delimited "BEGIN header" "END header" l body l' /\ header extra hd its.
Proof. intros [l body l' D H]. eauto 8. Qed.
Definition one_kind (its : list hitem) : Prop := atoms its = [] \/ sites its = [].
Lemma update_nil es : update [] (dict_of key_eqb es) = dict_of key_eqb es.
Proof. apply (dict_of_nodup key_eqb key_eqb_spec), (dict_of_keys_nodup key_eqb key_eqb_spec). Qed.
Lemma says_keys its es k : header_says its es -> In k (map fst es) -> In k (map fst (flat_map item_entry its)) \/ k = kstr "coords".
Proof.
  destruct 1; rewrite map_app, in_app_iff; (intros [H1|H1]; [left; exact H1|right; destruct H1 as [<-|[]]; reflexivity]).
Qed.
Lemma dict_of_absent (es : dict) k : ~ In k (map fst es) -> absent (dict_of key_eqb es) k.
Proof.
  intros H Q. apply H. apply in_map_iff in Q as ([k' v] & E & Q). cbn in E. subst. apply (in_dict_of key_eqb key_eqb_spec) in Q. apply in_map_iff. exists (k, v). auto.
Qed.
Lemma says_absent its es names k : header_says its es -> unnamed names (flat_map item_entry its) -> In k names -> k <> "coords"%string ->
  absent (dict_of key_eqb es) (KStr (text_of k)).
Proof.
  intros Hs Hu Hk Hc. apply dict_of_absent. intros H. apply (says_keys _ _ _ Hs) in H as [H|H]; [exact (Hu k Hk H)|].
  apply Hc. injection H as H. rewrite <- (string_of_list_ascii_of_string k). unfold text_of in H. rewrite H. reflexivity.
Qed.
Theorem efield_exact ls its ps : efield_file its ps ls -> one_kind its -> unnamed ["oscillator_strengths"; "permittivity"]%string (flat_map item_entry its) ->
  exists d0 es d, parse_efield_file ls = Ok (VDict true d) /\ header_says its es /\ merged es d0 /\ gathered d0 (flat_map efield_entry ps) d.
Proof.
  intros [hd ls' Hh Hp] Hk Hu. destruct (header_block_text _ _ _ Hh) as (l & body & l' & E & D & H).
  destruct (header_exact ["Oscillator Q"%string] _ _ _ ltac:(left; reflexivity) H Hk) as (d0 & es & E0 & Hs & ->).
  destruct (appends_gathered (dict_of key_eqb es) (flat_map efield_entry ps)) as (d & Ed & Hd).
  - apply (dict_of_keys_nodup key_eqb key_eqb_spec).
  - intros k Hin. apply in_map_iff in Hin as ([k' v] & <- & Hin). apply in_flat_map in Hin as (p & _ & Hin). cbn [fst].
    assert (Q : k' = KStr (text_of "oscillator_strengths") \/ k' = KStr (text_of "permittivity")).
    { destruct p as [[|r rows]|[|r rows]]; cbn in Hin; try contradiction; destruct Hin as [Hin|[]]; injection Hin as <- _; auto. }
    destruct Q as [-> | ->]; apply (says_absent _ _ _ _ Hs Hu); cbn; auto; discriminate.
  - exists (dict_of key_eqb es), es, d. split; [|split; [exact Hs|split; [apply merged_dict_of, key_eqb_spec|exact Hd]]].
    unfold parse_efield_file, over_file. rewrite E in H, E0 |- *. cbn [app length file_loop]. rewrite <- app_assoc. cbn [app].
    unfold efield_step at 1. rewrite (if_block_yes _ _ _ _ _ _ _ _ D) by discriminate. rewrite E0. cbn [bind]. rewrite update_nil.
    rewrite (efield_parts_loop _ _ Hp), Ed; [reflexivity|]. rewrite app_length. cbn. lia.
Qed.

(** ** .phonon_dos *)
Lemma fp_ws_back ns t s p c : columns ns t -> ns <> [] -> exists w t2, t = w ++ t2 /\ blanks w /\ columns ns t2 /\
  forall r c', (forall p s', hd_not is_space s' -> nomatch r p s' c) -> (forall p, fp r p t2 s c c') -> fp (RSeq ws_star r) p t s c c'.
Proof.
  intros Ht Hn. destruct Ht as [|g n ns t' Hg Hg0 Hn0 Ht']; [congruence|]. pose proof (proj1 (blanks_iff _) Hg) as Hb.
  destruct g as [|x w _] using rev_ind; [congruence|].
  rewrite forallb_app in Hb. cbn in Hb. apply andb_true_iff in Hb as [Hw Hx]. rewrite andb_true_r in Hx.
  exists w, ([x] ++ write_num n ++ t'). split; [now rewrite <- app_assoc|]. split; [now apply blanks_iff|]. split.
  { constructor; auto; [|discriminate]. unfold blanks in Hg. rewrite Forall_app in Hg. tauto. }
  intros r c' Hno Hf. rewrite <- app_assoc. cbn [app]. unfold ws_star.
  pose proof (CellFacts.write_num_numchars n) as C. pose proof (write_num_nonempty n Hn0) as N.
  assert (Hd : hd_not is_space ((write_num n ++ t') ++ s)).
  { destruct (write_num n) as [|y q]; [congruence|]. cbn in C |- *. apply andb_true_iff in C as [C _]. clear -C. revert y C. ascii_dec. }
  apply CellFacts.fp_star_back1; [exact Hw|exact Hx|exact Hd|now apply Hno|apply Hf].
Qed.
Lemma counted_no l k p s c : hd_not is_space s -> nomatch (labelled_float lf_sep REps (l, Some (S k, S k))) p s c.
Proof.
  intros Hs. apply nomatch_den. intros p' s' c' D. apply den_counted in D as (ns & t & Ht & Hl & -> & _).
  destruct ns as [|n ns]; [discriminate|]. inversion Ht as [|g ? ? ? Hg Hg0]; subst. destruct g as [|y g]; [congruence|].
  apply blanks_iff in Hg. cbn in Hg, Hs. apply andb_prop in Hg as [Hg _]. congruence.
Qed.
Lemma columns_app_inv ns1 ns2 t : columns (ns1 ++ ns2) t -> exists t1 t2, t = t1 ++ t2 /\ columns ns1 t1 /\ columns ns2 t2.
Proof.
  revert t. induction ns1 as [|n ns1 IH]; intros t H; cbn in H; [exists [], t; repeat split; auto; constructor|].
  inversion H as [|g n' ns' t' Hg Hg0 Hn Ht]; subst. apply IH in Ht as (t1 & t2 & -> & H1 & H2).
  exists (g ++ write_num n ++ t1), t2. rewrite <- !app_assoc. repeat split; auto. now constructor.
Qed.
Lemma columns_split ns t : columns ns t -> split t = map write_num ns.
Proof. intros H. apply split_cut. rewrite <- (app_nil_r t). apply columns_cut; [exact H|constructor]. Qed.
Lemma title_match g l : gradient_title g l -> exists x, re_match PHONON_PHONON_RE l = Some x /\
  split (group_s x "qpt") = map write_num (gr_qpt g) /\ split (group_s x "pth") = [write_num (gr_weight g)].
Proof.
  intros [a b i t s Ha Ha0 Hb Hi Hw Hl Ht Hs Hf]. destruct (int_write _ Hi Hw) as [Ei Hi0].
  apply columns_app_inv in Ht as (t1 & t2 & -> & H1 & H2).
  assert (T2 : token_end (t2 ++ s)) by (eapply columns_hd; eassumption).
  assert (T1 : token_end (t1 ++ t2 ++ s)) by (eapply columns_hd; eassumption).
  destruct (fp_ws_back (gr_qpt g) t1 (t2 ++ s) (pa None (a ++ text_of "q-pt=" ++ b ++ write_num i)) [] H1) as (w & t1' & E1 & Hw' & H1' & F1).
  { destruct (gr_qpt g); [discriminate|discriminate]. }
  pose proof (proj1 (blanks_iff _) Ha) as Ha'. pose proof (proj1 (blanks_iff _) Hb) as Hb'.
  assert (F : fp PHONON_PHONON_RE None (concat [a; text_of "q-pt="; b; write_num i; t1 ++ t2]) s [] [("pth"%string, t2); ("qpt"%string, t1')]).
  { change PHONON_PHONON_RE with (RSeqs [ws_plus; RLit "q-pt="; ws_star; INTNUMBER_RE;
      RSeqs [ws_star; labelled_float lf_sep REps ("qpt"%string, Some (3, 3)); labelled_float lf_sep REps ("pth"%string, Some (1, 1))]]).
    apply fp_seqs. eapply fpl_cons; [|eapply fpl_cons; [|eapply fpl_cons; [|eapply fpl_cons; [|eapply fpl_cons; [|apply fpl_nil]]]]].
    - apply fp_plus_chr; [exact Ha'|exact Ha0|reflexivity].
    - apply fp_lit.
    - apply fp_star_chr; [exact Hb'|]. cbn [concat]. rewrite <- !app_assoc. apply num_hd. now apply int_num_ok.
    - rewrite Ei. apply fp_INT; [exact Hi0| |].
      + cbn [concat]. rewrite app_nil_r, <- app_assoc. destruct (t1 ++ t2 ++ s) as [|y z]; [exact I|].
        specialize (T1 y z eq_refl). apply blank_iff in T1. cbn. pose proof (space_not_mant_e _ T1) as Q. apply orb_false_iff in Q. apply Q.
      + intros _. intros E. destruct b as [|y b0 _] using rev_ind; [discriminate E|].
        rewrite pa_rev, rev_app_distr in E. cbn in E. injection E as ->. rewrite forallb_app in Hb'. cbn in Hb'.
        apply andb_prop in Hb' as [_ Hb']. discriminate.
    - cbn [concat]. rewrite <- !pa_app.
      intros R k y Hk. rewrite <- app_assoc. cbn [RSeqs].
      assert (FF : fp (RSeq ws_star (labelled_float lf_sep REps ("qpt"%string, Some (3, 3)))) (pa None (a ++ text_of "q-pt=" ++ b ++ write_num i)) t1 (t2 ++ s) [] [("qpt"%string, t1')]).
      { apply F1; [intros p s' Hs'; now apply counted_no|]. intros p. now apply (fp_counted _ _ (gr_qpt g)). }
      specialize (FF R (fun p' s' c' => m (labelled_float lf_sep REps ("pth"%string, Some (1, 1))) p' s' c' k) y).
      refine (FF _). apply (fp_counted _ _ [gr_weight g] t2); [exact H2|reflexivity|exact Hs|]. rewrite <- !pa_app in *. exact Hk. }
  assert (E : a ++ text_of "q-pt=" ++ b ++ write_num i ++ (t1 ++ t2) ++ s = concat [a; text_of "q-pt="; b; write_num i; t1 ++ t2] ++ s).
  { cbn [concat]. rewrite app_nil_r, <- !app_assoc. reflexivity. }
  unfold re_match. rewrite E, (fp_match_at _ _ _ _ _ F). eexists. split; [reflexivity|]. unfold group_s. cbn [m_caps cap find fst snd String.eqb].
  split; [exact (columns_split _ _ H1')|exact (columns_split _ _ H2)].
Qed.
Lemma title_none l : ~ mentions "q-pt=" l -> re_match PHONON_PHONON_RE l = None.
Proof.
  intros H. destruct (re_match PHONON_PHONON_RE l) as [x|] eqn:E; [|reflexivity]. exfalso. apply H.
  unfold re_match, match_at in E. apply m_sound in E as (p' & s' & c' & D & _). unfold PHONON_PHONON_RE in D. cbn [RSeqs] in D.
  destruct D as (p1 & s1 & c1 & D1 & p2 & s2 & c2 & D2 & _). apply den_consumed in D1 as (w1 & -> & _ & _).
  apply den_lit in D2 as (-> & _ & _). exists w1, s2. reflexivity.
Qed.
Lemma match_labelled_none names l : ~ has_columns (length names) l -> re_match (labelled_floats names) l = None.
Proof.
  intros H. destruct (re_match (labelled_floats names) l) as [x|] eqn:E; [|reflexivity]. exfalso. apply H.
  unfold re_match, match_at in E. apply m_sound in E as (p' & s' & c' & D & _). apply den_labelled in D as (ns & t & Ht & Hl & -> & _ & _).
  exists [], t, s', ns. auto.
Qed.
Definition graw (g : gradient) (rs : list (num * (num * num))) : dict :=
  [(kstr "qpt", VList (map VStr (map write_num (gr_qpt g)))); (kstr "pth", VList (map VStr [write_num (gr_weight g)]))] ++
  match rs with
  | [] => []
  | _ => [(kstr "n", VList (map (fun r => VStr (write_num (fst r))) rs)); (kstr "f", VList (map (fun r => VStr (write_num (fst (snd r)))) rs));
          (kstr "Grad_qf", VList (map (fun r => VStr (write_num (snd (snd r)))) rs))]
  end.
Lemma graw_stack g rs r x : groupdict PROCESS_PHONON_PHONON_RE x =
    combine (map kstr ["n"; "f"; "Grad_qf"]%string) (map (fun n => VStr (write_num n)) [fst r; fst (snd r); snd (snd r)]) ->
  stack_vals (graw g rs) (groupdict PROCESS_PHONON_PHONON_RE x) = Ok (graw g (rs ++ [r])).
Proof.
  intros ->. destruct rs as [|r0 rs]; [reflexivity|]. unfold graw. rewrite <- !app_comm_cons. cbn [map]. rewrite !map_app. reflexivity.
Qed.
Lemma gradient_rows ls rs : laid gradient_row gradient_other ls rs -> forall info g rs0,
  foldM gradient_line ls (info, graw g rs0) = Ok (info, graw g (rs0 ++ rs)).
Proof.
  induction 1 as [|l a ls rs Hl _ IH|l ls rs [H1 H2] _ IH]; intros info g rs0; cbn [foldM].
  - now rewrite app_nil_r.
  - destruct Hl as [l n f gr Hr Hn Hq]. unfold gradient_line at 1. rewrite (title_none _ Hq).
    destruct (num_row_table ["n"; "f"; "Grad_qf"]%string _ _ ltac:(repeat constructor; cbn; intuition discriminate) Hr) as (x & Ex & Eg).
    unfold PROCESS_PHONON_PHONON_RE at 1. rewrite Ex. rewrite (graw_stack g rs0 (n, (f, gr)) x Eg). cbn [bind].
    rewrite IH, <- app_assoc. reflexivity.
  - unfold gradient_line at 1. rewrite (title_none _ H1). unfold PROCESS_PHONON_PHONON_RE at 1. rewrite match_labelled_none by exact H2. cbn [bind]. apply IH.
Qed.
Definition gradient_ok (g : gradient) : Prop :=
  Forall (fun n => num_wf n /\ fits (num_value n)) (gr_qpt g ++ [gr_weight g]) /\
  Forall (fun r => is_int (fst r) /\ num_wf (fst r) /\ Forall (fun n => num_wf n /\ fits (num_value n)) [fst (snd r); snd (snd r)]) (gr_rows g).
Lemma fix_one d k t v : fix_data_types d ((k, t) :: v) = (d' <- fix_data_types d [(k, t)] ;; fix_data_types d' v).
Proof. unfold fix_data_types. cbn [foldM fst snd]. destruct (dget key_eqb d k) as [y|]; [|reflexivity]. destruct (to_type t y); reflexivity. Qed.
Lemma graw_fix info g : gradient_ok g -> keep_gradients info (graw g (gr_rows g)) = append_to info (kstr "gradients") (gradient_val g).
Proof.
  intros [H1 H2]. unfold keep_gradients. change (graw g (gr_rows g)) with (graw g (gr_rows g)).
  assert (Q : forall ns, Forall (fun n => num_wf n /\ fits (num_value n)) ns -> to_type TFloat (VList (map VStr (map write_num ns))) = Ok (vector ns)).
  { intros ns H. cbn [to_type]. rewrite map_map, (mapM_map _ _ fval); [reflexivity|]. rewrite Forall_forall in H. intros n Hn. destruct (H n Hn). now apply to_float. }
  rewrite Forall_app in H1. destruct H1 as [Hq Hp]. pose proof (Q _ Hq) as Eq. pose proof (Q _ Hp) as Ep. clear Q. cbn [map] in Ep.
  unfold graw. cbn [app map]. unfold gradient_val.
  destruct (gr_rows g) as [|r0 rs'] eqn:Er.
  - unfold fix_gradients, fix_data_types. cbn [foldM fst snd]. 
    change (dget key_eqb _ (kstr "qpt")) with (Some (VList (map VStr (map write_num (gr_qpt g))))). cbv beta iota. rewrite Eq. cbn [rmap bind].
    change (dget key_eqb _ (kstr "pth")) with (Some (VList [VStr (write_num (gr_weight g))])). cbv beta iota. rewrite Ep. reflexivity.
  - rewrite <- Er in H2 |- *. set (rs := gr_rows g) in *.
    assert (En : to_type TInt (VList (map (fun r => VStr (write_num (fst r))) rs)) = Ok (VTuple (map (fun r => int_val (fst r)) rs))).
    { cbn [to_type]. rewrite (mapM_map _ _ (fun r => int_val (fst r))); [reflexivity|]. rewrite Forall_forall in H2. intros r Hr. destruct (H2 r Hr) as (A & B & _). now apply to_int. }
    assert (Ef : forall h, (forall r, In (h r) [fst (snd r); snd (snd r)]) -> to_type TFloat (VList (map (fun r => VStr (write_num (h r))) rs)) = Ok (vector (map h rs))).
    { intros h Hh. cbn [to_type]. rewrite (mapM_map _ _ (fun r => fval (h r))); [unfold vector; rewrite map_map; reflexivity|]. rewrite Forall_forall in H2. intros r Hr.
      destruct (H2 r Hr) as (_ & _ & B). rewrite Forall_forall in B. destruct (B _ (Hh r)). now apply to_float. }
    pose proof (Ef (fun r => fst (snd r)) ltac:(intros; cbn; tauto)) as E1. pose proof (Ef (fun r => snd (snd r)) ltac:(intros; cbn; tauto)) as E2. clear Ef.
    revert En E1 E2. cbv beta. generalize (map (fun r => VStr (write_num (fst r))) rs) (map (fun r => VStr (write_num (fst (snd r)))) rs) (map (fun r => VStr (write_num (snd (snd r)))) rs).
    intros l1 l2 l3. generalize (VList l1) (VList l2) (VList l3). intros p1 p2 p3 En E1 E2.
    unfold fix_gradients, fix_data_types. cbn [foldM fst snd].
    change (dget key_eqb _ (kstr "qpt")) with (Some (VList (map VStr (map write_num (gr_qpt g))))). cbv beta iota. rewrite Eq. cbn [rmap bind].
    change (dget key_eqb _ (kstr "pth")) with (Some (VList [VStr (write_num (gr_weight g))])). cbv beta iota. rewrite Ep. cbn [rmap bind].
    change (dget key_eqb _ (kstr "n")) with (Some p1). cbv beta iota. rewrite En. cbn [rmap bind].
    change (dget key_eqb _ (kstr "f")) with (Some p2). cbv beta iota. rewrite E1. cbn [rmap bind].
    change (dget key_eqb _ (kstr "Grad_qf")) with (Some p3). cbv beta iota. rewrite E2. cbn [rmap bind].
    destruct rs; [discriminate Er|]. reflexivity.
Qed.
Lemma gradient_row_ok l r : gradient_row l r -> is_int (fst r) /\ num_wf (fst r) /\ Forall (fun n => num_wf n /\ fits (num_value n)) [fst (snd r); snd (snd r)].
Proof.
  intros [l' n f g Hr Hn _]. cbn [fst snd]. apply num_row_ok in Hr as [_ Hr]. inversion Hr as [|? ? [A B] C]; subst. auto.
Qed.
Lemma gradients_ok ls gs : gradients ls gs -> Forall gradient_ok gs.
Proof.
  induction 1 as [|t g ls rest gs Ht Hl _ IH]; constructor; auto. split.
  - destruct Ht as [a b i t s Ha Ha0 Hb Hi Hw Hl' Ht Hs Hf]. apply columns_ok, Forall_wf in Ht. unfold all_fit in Hf. rewrite Forall_forall in *. auto.
  - clear -Hl. induction Hl as [|l a ls rs H _ IH|l ls rs H _ IH]; [constructor| |exact IH]. constructor; [|exact IH]. exact (gradient_row_ok _ _ H).
Qed.
Lemma gradients_fold ls gs : gradients ls gs -> forall info q g0, (q = [] /\ g0 = []) \/ (exists g, gradient_ok g /\ q = graw g (gr_rows g) /\ g0 = [g]) ->
  (x <- foldM gradient_line ls (info, q) ;; keep_gradients (fst x) (snd x)) = appends info (map (fun g => named "gradients" (gradient_val g)) (g0 ++ gs)).
Proof.
  induction 1 as [|t g ls rest gs Ht Hl Hg IH]; intros info q g0 Hq.
  - cbn [foldM bind fst snd]. destruct Hq as [[-> ->]|(g & Hg & -> & ->)]; [reflexivity|]. rewrite graw_fix by exact Hg.
    unfold appends. cbn [app map foldM fst snd]. change (kstr "gradients") with (fst (named "gradients" VNone)). cbn [fst named]. destruct (append_to _ _ _); reflexivity.
  - cbn [foldM]. unfold gradient_line at 1. destruct (title_match _ _ Ht) as (x & Ex & E1 & E2). rewrite Ex.
    assert (GO : gradient_ok g) by (assert (G := gradients_ok _ _ (gs_more _ _ _ _ _ Ht Hl Hg)); now inversion G).
    cbn [map]. rewrite E1, E2. change (dict_of key_eqb _) with (graw g []).
    assert (Step : forall info, (x <- foldM gradient_line (ls ++ rest) (info, graw g []) ;; keep_gradients (fst x) (snd x)) =
       appends info (map (fun g => named "gradients" (gradient_val g)) (g :: gs))).
    { intros info'. rewrite foldM_split, (gradient_rows _ _ Hl). cbn [bind app]. rewrite (IH info' _ [g]); [reflexivity|]. right. eauto. }
    destruct Hq as [[-> ->]|(g' & Hg' & -> & ->)].
    + cbn [keep_gradients bind app]. apply Step.
    + rewrite graw_fix by exact Hg'. cbn [app map]. unfold appends at 1. cbn [foldM fst snd named].
      change (KStr (text_of "gradients")) with (kstr "gradients"). destruct (append_to info (kstr "gradients") (gradient_val g')) as [info'|e]; [|reflexivity].
      cbn [bind]. apply Step.
Qed.
Lemma bind_pair {A B C} (r : result (A * B)) (f : A -> B -> result C) : (' (a, b) <- r ;; f a b) = (x <- r ;; f (fst x) (snd x)).
Proof. destruct r as [[a b]|e]; reflexivity. Qed.
Lemma dos_gradients_spec info pre rest gs : Forall gradient_other pre -> gradients rest gs ->
  dos_gradients info (pre ++ rest) = appends info (map (fun g => named "gradients" (gradient_val g)) gs).
Proof.
  intros Hp Hg. unfold dos_gradients. rewrite bind_pair, foldM_split.
  assert (E : forall q, foldM gradient_line pre (info, q) = Ok (info, q)).
  { intros q. induction Hp as [|l pre [H1 H2] _ IH]; [reflexivity|]. cbn [foldM]. unfold gradient_line at 1. rewrite (title_none _ H1).
    unfold PROCESS_PHONON_PHONON_RE at 1. rewrite match_labelled_none by exact H2. exact IH. }
  rewrite E. cbn [bind]. apply (gradients_fold _ _ Hg info [] []). auto.
Qed.
Definition dos_labels (species : list str) : list string := ("freq" :: "g" :: map string_of_list_ascii species)%string.
Lemma dos_labels_text species : map text_of (dos_labels species) = dos_names species.
Proof. unfold dos_labels, dos_names. cbn [map]. do 2 f_equal. rewrite map_map. rewrite <- (map_id species) at 2. apply map_ext. apply list_ascii_of_string_of_list_ascii. Qed.
Lemma distinct_nodup l : NoDup l -> distinct l = true.
Proof.
  induction 1 as [|x l Hx _ IH]; [reflexivity|]. cbn. rewrite IH, andb_true_r. apply negb_true_iff. destruct (existsb (str_eqb x) l) eqn:E; [|reflexivity].
  exfalso. apply existsb_exists in E as (y & Hy & E). destruct (str_eqb_spec x y); [subst; auto|discriminate].
Qed.
Lemma identifier_true w : SpecFiles.identifier w -> TextFiles.identifier w = true.
Proof.
  intros [[Hn Hw] Hd]. destruct w as [|c t]; [congruence|]. cbn [TextFiles.identifier]. apply andb_true_iff. split; [|now apply words_iff].
  apply negb_true_iff. destruct (is_digit c) eqn:E; [|reflexivity]. exfalso. apply (Hd c t eq_refl). now apply in_range_iff.
Qed.
Lemma labels_ok species : Forall SpecFiles.identifier species -> NoDup (dos_names species) ->
  group_labels ($"freq" :: $"g" :: species) = Ok (dos_labels species).
Proof.
  intros Hi Hn. unfold group_labels. change ($"freq" :: $"g" :: species) with (dos_names species).
  rewrite (distinct_nodup _ Hn). unfold dos_names. cbn [forallb]. replace (forallb TextFiles.identifier species) with true; [reflexivity|].
  symmetry. apply forallb_forall. intros w Hw. rewrite Forall_forall in Hi. now apply identifier_true, Hi.
Qed.
Lemma dos_table_spec info l body x l' w1 w2 w3 w4 w5 species rows :
  cut nonblank (w1 :: w2 :: w3 :: w4 :: w5 :: species) l -> Forall SpecFiles.identifier species -> NoDup (dos_names species) ->
  Forall2 (num_row (2 + length species)) body rows ->
  dos_table info (l :: (body ++ [x]) ++ [l']) = appends info (dos_entry (Dos species rows)).
Proof.
  intros Hc Hi Hn H. unfold dos_table. cbn [nthE nth_error bind]. rewrite (split_cut _ _ Hc). cbn [skipn]. rewrite (labels_ok _ Hi Hn). cbn [bind].
  rewrite skip_bounds.
  assert (Hl : length (dos_labels species) = 2 + length species) by (cbn; now rewrite map_length).
  assert (Hnd : NoDup (dos_labels species)).
  { rewrite <- dos_labels_text in Hn. now apply NoDup_map_inv in Hn. }
  rewrite <- Hl in H. rewrite (stack_rows _ (dos_labels species) body rows).
  - cbn [bind]. rewrite table_kept.
    + rewrite dos_labels_text. destruct rows; [reflexivity|]. cbn [dos_entry dos_labels]. unfold appends. cbn [foldM fst snd named].
      change (KStr (text_of "dos")) with (kstr "dos"). destruct (append_to _ _ _); reflexivity.
    + now apply kstr_nodup.
    + clear -H. induction H as [|? ? ? ? H0 _ IH]; constructor; auto. exact (proj2 (num_row_ok _ _ _ H0)).
  - now apply kstr_nodup.
  - clear -H Hnd. induction H as [|? ? ? ? H0 _ IH]; constructor; auto. now apply num_row_table.
  - clear -H. induction H as [|? ? ? ? H0 _ IH]; constructor; auto. exact (proj1 (num_row_ok _ _ _ H0)).
Qed.
Lemma dos_parts_loop ls ps : dos_parts ls ps -> forall n info, length ls <= n ->
  file_loop phonon_dos_step n info ls = appends info (flat_map dos_entry ps).
Proof.
  induction 1 as [|l ls ps N1 N2 N3 _ IH|l body l' pre rest gs ls ps N1 D E P G _ IH|l w1 w2 w3 w4 w5 species body x l' rows ls ps N1 N2 D C I N F _ IH]; intros n info Hn.
  - now destruct n.
  - destruct n as [|n]; [cbn in Hn; lia|]. cbn [file_loop]. unfold phonon_dos_step at 1.
    rewrite !if_block_no by assumption. cbn [bind]. apply IH. cbn in Hn. lia.
  - destruct n as [|n]; [cbn in Hn; lia|]. cbn [file_loop]. unfold phonon_dos_step at 1. rewrite if_block_no by assumption.
    rewrite (if_block_yes _ _ _ _ _ _ _ _ D) by discriminate. rewrite E, (dos_gradients_spec _ _ _ _ P G).
    cbn [flat_map]. rewrite appends_app. cbn [dos_entry]. destruct (appends info _) as [d|e]; [|reflexivity]. cbn [bind]. apply IH.
    cbn in Hn. rewrite app_length in Hn. cbn in Hn. lia.
  - destruct n as [|n]; [cbn in Hn; lia|]. cbn [file_loop]. unfold phonon_dos_step at 1. rewrite !if_block_no by assumption.
    change (body ++ x :: l' :: ls) with (body ++ [x] ++ l' :: ls). rewrite app_assoc, (if_block_yes _ _ _ _ _ _ _ _ D) by discriminate.
    rewrite (dos_table_spec _ _ _ _ _ _ _ _ _ _ _ _ C I N F). cbn [flat_map]. rewrite appends_app.
    destruct (appends info _) as [d|e]; [|reflexivity]. cbn [bind]. apply IH. cbn in Hn. rewrite app_length in Hn. cbn in Hn. lia.
Qed.
Theorem dos_exact ls its ps : dos_file its ps ls -> one_kind its -> unnamed ["gradients"; "dos"]%string (flat_map item_entry its) ->
  exists d0 es d, parse_phonon_dos_file ls = Ok (VDict true d) /\ header_says its es /\ merged es d0 /\ gathered d0 (flat_map dos_entry ps) d.
Proof.
  intros [hd ls' Hh Hp] Hk Hu. destruct (header_block_text _ _ _ Hh) as (l & body & l' & E & D & H).
  destruct (header_exact [] _ _ _ ltac:(right; split; reflexivity) H Hk) as (d0 & es & E0 & Hs & ->).
  destruct (appends_gathered (dict_of key_eqb es) (flat_map dos_entry ps)) as (d & Ed & Hd).
  - apply (dict_of_keys_nodup key_eqb key_eqb_spec).
  - intros k Hin. apply in_map_iff in Hin as ([k' v] & <- & Hin). apply in_flat_map in Hin as (p & _ & Hin). cbn [fst].
    assert (Q : k' = KStr (text_of "gradients") \/ k' = KStr (text_of "dos")).
    { destruct p as [gs|sp [|r rows]]; cbn [dos_entry] in Hin; [|contradiction|].
      - apply in_map_iff in Hin as (g & Hin & _). injection Hin as <- _. auto.
      - destruct Hin as [Hin|[]]. injection Hin as <- _. auto. }
    destruct Q as [-> | ->]; apply (says_absent _ _ _ _ Hs Hu); cbn; auto; discriminate.
  - exists (dict_of key_eqb es), es, d. split; [|split; [exact Hs|split; [apply merged_dict_of, key_eqb_spec|exact Hd]]].
    unfold parse_phonon_dos_file, over_file. rewrite E in H, E0 |- *. cbn [app length file_loop]. rewrite <- app_assoc. cbn [app].
    unfold phonon_dos_step at 1. rewrite (if_block_yes _ _ _ _ _ _ _ _ D) by discriminate. rewrite E0. cbn [bind]. rewrite update_nil.
    rewrite (dos_parts_loop _ _ Hp), Ed; [reflexivity|]. rewrite app_length. cbn. lia.
Qed.
