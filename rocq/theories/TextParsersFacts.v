(** Facts about [TextParsers.v]. *)
From Verif Require Import PyBase PyFacts PyVal Regex RegexFacts CastepRes NumSpec SpecLine NumFacts NumVal NumProps SpecText
  SpecTable SpecStr SpecDict StrUtilFacts DictUtil IntStr DictFacts DictSmall Stream StreamFacts TypeConv SpecType TypeConvFacts ColumnFacts TextParsers.
Local Open Scope list_scope.
Local Open Scope nat_scope.

Lemma mentions_iff w l : mentions w l <-> contains ($w) l = true.
Proof. unfold mentions. now rewrite contains_iff. Qed.

Lemma strip_trimmed l : trimmed l (strip l).
Proof.
  destruct (strip_decomp l) as (a & b & E & Ha & Hb). exists a, b. split; [exact E|].
  split; [now apply blanks_iff|]. split; [now apply blanks_iff|].
  unfold strip, strip_by in *. set (u := lstrip_by is_space l) in *.
  assert (Hr : right_stripped u (rstrip u)) by apply right_stripped_rstrip.
  split.
  - intros c t Ec. intros Hbl. apply blank_iff in Hbl.
    assert (Hu : hd_not is_space u) by apply drop_while_hd.
    destruct Hr as (z & Ez & _ & _). unfold rstrip in *. rewrite Ec in Ez. unfold u in Ez, Hu.
    rewrite Ez in Hu. cbn in Hu. congruence.
  - destruct Hr as (z & _ & _ & Hz). exact Hz.
Qed.
Lemma trimmed_strip l o : trimmed l o -> strip l = o.
Proof.
  intros (a & b & -> & Ha & Hb & Hf & Hl). apply blanks_iff in Ha, Hb. destruct o as [|x o].
  - cbn [app]. unfold strip. apply strip_by_all. now rewrite forallb_app, Ha, Hb.
  - apply strip_by_core; auto; [|unfold last_not|discriminate].
    + cbn. specialize (Hf x o eq_refl). rewrite blank_iff in Hf. now destruct (is_space x).
    + destruct (rev (x :: o)) as [|y r] eqn:E; [exact I|]. cbn.
      assert (Hxy : x :: o = rev r ++ [y]) by (rewrite <- (rev_involutive (x :: o)), E; reflexivity).
      specialize (Hl _ _ Hxy). rewrite blank_iff in Hl. now destruct (is_space y).
Qed.
Lemma strip_empty l : isempty (strip l) = true <-> blanks l.
Proof.
  rewrite isempty_nil. split.
  - intros E. destruct (strip_trimmed l) as (a & b & El & Ha & Hb & _). rewrite E in El. cbn in El. subst l.
    apply Forall_app. auto.
  - intros H. apply blanks_iff in H. unfold strip. now apply strip_by_all.
Qed.

(** ** .err *)
Lemma err_message_found pre m rest : Forall (fun l => ~ mentions "Current trace stack" l) pre ->
  mentions "Current trace stack" m -> forall acc, err_message acc (pre ++ m :: rest) = Ok (acc ++ concat pre, rest).
Proof.
  intros Hp Hm. induction Hp as [|l pre Hl _ IH]; intros acc; cbn [app err_message concat].
  - apply mentions_iff in Hm. rewrite Hm. now rewrite app_nil_r.
  - rewrite mentions_iff in Hl. apply not_true_is_false in Hl. rewrite Hl, IH. now rewrite app_assoc.
Qed.
Lemma err_message_none ls : Forall (fun l => ~ mentions "Current trace stack" l) ls ->
  forall acc, err_message acc ls = Err StopIteration.
Proof.
  induction 1 as [|l ls Hl _ IH]; intros acc; cbn [err_message]; [reflexivity|].
  rewrite mentions_iff in Hl. apply not_true_is_false in Hl. now rewrite Hl, IH.
Qed.
Theorem err_found pre m rest text msg stack :
  lines_of (pre ++ m :: rest) text ->
  Forall (fun l => ~ mentions "Current trace stack" l) pre -> mentions "Current trace stack" m ->
  trimmed (concat pre) msg -> Forall2 trimmed rest stack ->
  parse_err_file (file_lines text) =
  Ok (VDict false [(kstr "message", VStr msg); (kstr "stack", VList (map VStr stack))]).
Proof.
  intros Ht Hp Hm Hmsg Hst. rewrite (file_lines_of _ _ Ht). unfold parse_err_file.
  rewrite err_message_found by assumption. cbn [bind app]. rewrite (trimmed_strip _ _ Hmsg).
  assert (E : map (fun l => VStr (strip l)) rest = map VStr stack); [|now rewrite E].
  clear Ht. induction Hst as [|l o ls os H _ IH]; [reflexivity|]. cbn [map]. now rewrite (trimmed_strip _ _ H), IH.
Qed.
Theorem err_none ls text : lines_of ls text -> Forall (fun l => ~ mentions "Current trace stack" l) ls ->
  parse_err_file (file_lines text) = Err StopIteration.
Proof.
  intros Ht H. rewrite (file_lines_of _ _ Ht). unfold parse_err_file. now rewrite err_message_none.
Qed.

(** ** Stacking rows with the same keys *)
Fixpoint snoc_row {V} (ls : list (list V)) (row : list V) : list (list V) :=
  match ls, row with
  | l :: ls', v :: row' => (l ++ [v]) :: snoc_row ls' row'
  | _, _ => []
  end.
Lemma snoc_row_len {V} : forall (ls : list (list V)) row, length ls = length row -> length (snoc_row ls row) = length ls.
Proof. induction ls as [|l ls IH]; intros [|v row] H; cbn in *; try discriminate; auto. Qed.

Lemma key_eqb_eq a b : key_eqb a b = true <-> a = b.
Proof. destruct (key_eqb_spec a b); split; congruence. Qed.
Lemma key_eqb_refl' k : key_eqb k k = true.
Proof. apply key_eqb_eq. reflexivity. Qed.
Lemma dget_combine_skip {V} k : forall ks (ls : list V) rest, ~ In k ks -> length ks = length ls ->
  dget key_eqb (combine ks ls ++ rest) k = dget key_eqb rest k.
Proof.
  induction ks as [|k0 ks IH]; intros [|l ls] rest Hn Hl; try discriminate; [reflexivity|].
  cbn [combine app dget]. destruct (key_eqb k0 k) eqn:E.
  - apply key_eqb_eq in E. subst. exfalso. apply Hn. now left.
  - apply IH; [intros H; apply Hn; now right|now injection Hl].
Qed.
Lemma dset_combine_skip {V} k v : forall ks (ls : list V) rest, ~ In k ks -> length ks = length ls ->
  dset key_eqb (combine ks ls ++ rest) k v = combine ks ls ++ dset key_eqb rest k v.
Proof.
  induction ks as [|k0 ks IH]; intros [|l ls] rest Hn Hl; try discriminate; [reflexivity|].
  cbn [combine app dset]. destruct (key_eqb k0 k) eqn:E.
  - apply key_eqb_eq in E. subst. exfalso. apply Hn. now left.
  - rewrite IH; [reflexivity|intros H; apply Hn; now right|now injection Hl].
Qed.

Lemma stack_first_gen {V} : forall ks (row : list V) done dl, NoDup (done ++ ks) -> length done = length dl -> length ks = length row ->
  stack_dict true (combine done dl) (combine ks row) = Ok (combine done dl ++ combine ks (map (fun v => [v]) row)).
Proof.
  unfold stack_dict.
  induction ks as [|k ks IH]; intros [|v row] done dl Hn Hd Hl; try discriminate; cbn [combine foldM fst snd map].
  - now rewrite app_nil_r.
  - pose proof (dget_combine_skip k done dl [] ) as G. rewrite app_nil_r in G.
    assert (Hk : ~ In k done) by (apply NoDup_remove_2 in Hn; rewrite in_app_iff in Hn; tauto).
    rewrite G by assumption. cbn [dget bind].
    pose proof (dset_combine_skip k [v] done dl []) as S. rewrite app_nil_r in S. rewrite S by assumption.
    cbn [dset]. replace (combine done dl ++ [(k, [v])]) with (combine (done ++ [k]) (dl ++ [[v]])).
    + rewrite IH.
      * clear -Hd. rewrite <- (app_nil_r (combine ks _)) at 1. 
        assert (E : combine (done ++ [k]) (dl ++ [[v]]) = combine done dl ++ [(k, [v])]).
        { revert dl Hd. induction done as [|x done IH]; intros [|y dl] H; try discriminate; cbn in *; [reflexivity|].
          f_equal. apply IH. now injection H. }
        rewrite E, app_nil_r, <- app_assoc. reflexivity.
      * now rewrite <- app_assoc.
      * rewrite !app_length. cbn. lia.
      * now injection Hl.
    + clear -Hd. revert dl Hd. induction done as [|x done IH]; intros [|y dl] H; try discriminate; cbn in *; [reflexivity|].
      f_equal. apply IH. now injection H.
Qed.
Lemma stack_first {V} ks (row : list V) : NoDup ks -> length ks = length row ->
  stack_dict true [] (combine ks row) = Ok (combine ks (map (fun v => [v]) row)).
Proof. intros Hn Hl. apply (stack_first_gen ks row [] [] Hn eq_refl Hl). Qed.

Lemma stack_again_gen {V} : forall ks (row : list V) ls done dl, NoDup (done ++ ks) -> length done = length dl ->
  length ks = length row -> length ks = length ls ->
  stack_dict true (combine done dl ++ combine ks ls) (combine ks row) = Ok (combine done dl ++ combine ks (snoc_row ls row)).
Proof.
  unfold stack_dict.
  induction ks as [|k ks IH]; intros [|v row] [|l ls] done dl Hn Hd Hl Hl'; try discriminate; cbn [combine foldM fst snd snoc_row].
  - reflexivity.
  - assert (Hk : ~ In k done) by (apply NoDup_remove_2 in Hn; rewrite in_app_iff in Hn; tauto).
    rewrite dget_combine_skip by assumption. cbn [dget]. rewrite key_eqb_refl'. cbn [bind].
    rewrite dset_combine_skip by assumption. cbn [dset]. rewrite key_eqb_refl'.
    assert (E : forall z w, combine done dl ++ (k, z) :: w = combine (done ++ [k]) (dl ++ [z]) ++ w).
    { intros z w. clear -Hd. revert dl Hd. induction done as [|x done IH]; intros [|y dl] H; try discriminate; cbn in *; [reflexivity|].
      f_equal. apply IH. now injection H. }
    rewrite E, IH.
    + now rewrite <- E.
    + now rewrite <- app_assoc.
    + rewrite !app_length. cbn. lia.
    + now injection Hl.
    + now injection Hl'.
Qed.
Lemma stack_again {V} ks (row : list V) ls : NoDup ks -> length ks = length row -> length ks = length ls ->
  stack_dict true (combine ks ls) (combine ks row) = Ok (combine ks (snoc_row ls row)).
Proof. intros. apply (stack_again_gen ks row ls [] []); auto. Qed.

(** The columns of a list of rows: [n] is the number of columns. *)
Definition col {V} (rows : list (list V)) (j : nat) : list V := flat_map (fun r => match nth_error r j with Some v => [v] | None => [] end) rows.
Definition cols_of {V} (n : nat) (rows : list (list V)) : list (list V) := map (col rows) (seq 0 n).

Lemma cols_of_one {V} (row : list V) : cols_of (length row) [row] = map (fun v => [v]) row.
Proof.
  unfold cols_of, col. cbn [flat_map].
  assert (G : forall (pre row : list V), map (fun j => (match nth_error (pre ++ row) j with Some v => [v] | None => [] end) ++ []) (seq (length pre) (length row))
     = map (fun v => [v]) row).
  { intros pre r. revert pre. induction r as [|v r IH]; intros pre; [reflexivity|]. cbn [length seq map].
    rewrite nth_error_app2, Nat.sub_diag by lia. cbn [nth_error app]. f_equal.
    specialize (IH (pre ++ [v])). rewrite <- app_assoc in IH. cbn [app] in IH.
    rewrite app_length in IH. cbn [length] in IH. rewrite Nat.add_1_r in IH. exact IH. }
  apply (G [] row).
Qed.
Lemma cols_of_snoc {V} n (rows : list (list V)) (row : list V) : length row = n ->
  cols_of n (rows ++ [row]) = snoc_row (cols_of n rows) row.
Proof.
  intros <-. unfold cols_of.
  assert (G : forall (pre r : list V), map (col (rows ++ [pre ++ r])) (seq (length pre) (length r)) =
     snoc_row (map (col rows) (seq (length pre) (length r))) r).
  { intros pre r. revert pre. induction r as [|v r IH]; intros pre; [reflexivity|]. cbn [length seq map snoc_row]. f_equal.
    - unfold col. rewrite flat_map_app. cbn [flat_map]. rewrite nth_error_app2, Nat.sub_diag by lia. cbn. reflexivity.
    - specialize (IH (pre ++ [v])). rewrite <- app_assoc in IH. cbn [app] in IH.
      rewrite app_length in IH. cbn [length] in IH. rewrite Nat.add_1_r in IH. exact IH. }
  apply (G [] row).
Qed.
Lemma cols_of_len {V} n (rows : list (list V)) : length (cols_of n rows) = n.
Proof. unfold cols_of. now rewrite map_length, seq_length. Qed.

(** Stacking rows that all have the keys [ks]. *)
Theorem stack_same {V} ks (rows : list (list V)) : NoDup ks -> Forall (fun r => length r = length ks) rows ->
  foldM (fun d r => stack_dict true d (combine ks r)) rows [] =
  Ok (match rows with [] => [] | _ => combine ks (cols_of (length ks) rows) end).
Proof.
  intros Hn H. destruct rows as [|r0 rows]; [reflexivity|]. inversion H as [|? ? Hr0 Hrs]; subst.
  cbn [foldM]. rewrite stack_first by auto. cbn [bind]. rewrite <- cols_of_one, Hr0.
  assert (G : forall (rows pre : list (list V)), Forall (fun r => length r = length ks) rows ->
    foldM (fun d r => stack_dict true d (combine ks r)) rows (combine ks (cols_of (length ks) pre)) =
    Ok (combine ks (cols_of (length ks) (pre ++ rows)))).
  { clear -Hn. induction rows as [|r rows IH]; intros pre H; cbn [foldM].
    - now rewrite app_nil_r.
    - inversion H; subst. rewrite stack_again; [|auto|auto|now rewrite cols_of_len]. cbn [bind].
      rewrite <- cols_of_snoc, IH by assumption. now rewrite <- app_assoc. }
  apply (G rows [r0] Hrs).
Qed.

(** ** .hug *)
Definition fval (n : num) : pyval := VFloat (FQ (Qred (num_value n))).
Lemma to_float n : num_wf n -> fits (num_value n) -> to_type TFloat (VStr (write_num n)) = Ok (fval n).
Proof. intros H F. cbn. now rewrite py_float_num. Qed.
Lemma to_floats ns : Forall num_ok ns -> Forall (fun n => fits (num_value n)) ns ->
  mapM (to_type TFloat) (map (fun n => VStr (write_num n)) ns) = Ok (map fval ns).
Proof.
  intros H F. apply mapM_map. intros n Hn. rewrite Forall_forall in H, F.
  apply to_float; [apply num_ok_wf|]; auto.
Qed.
Lemma columns_ok ns t : columns ns t -> Forall num_ok ns.
Proof. induction 1; constructor; auto. Qed.

Lemma search_labelled ls ns t s : columns ns t -> length ls = length ns -> token_end s ->
  re_search (labelled_floats ls) (t ++ s) =
  Some {| m_text := t; m_caps := row_caps ls ns []; m_prev := pa None t; m_rest := s |}.
Proof.
  intros H Hl Hs. unfold re_search. erewrite search_from_hit; [reflexivity|]. now apply fp_labelled.
Qed.

(** Converting all the keys of a dict. *)
Lemma fix_keys t ks (vs ws : list pyval) : length ks = length vs -> NoDup ks -> Forall2 (fun v w => to_type t v = Ok w) vs ws ->
  fix_data_types (combine ks vs) (map (fun k => (k, t)) ks) = Ok (combine ks ws).
Proof.
  unfold fix_data_types. intros Hl Hn H.
  assert (G : forall ks vs ws, length ks = length vs -> NoDup ks -> Forall2 (fun v w => to_type t v = Ok w) vs ws ->
    forall (pre : list (key * pyval)), (forall k, In k ks -> ~ In k (map fst pre)) ->
    foldM (fun d kt => match dget key_eqb d (fst kt) with None => Ok d
             | Some v => rmap (dset key_eqb d (fst kt)) (to_type (snd kt) v) end) (map (fun k => (k, t)) ks) (pre ++ combine ks vs)
    = Ok (pre ++ combine ks ws)).
  { clear. induction ks as [|k ks IH]; intros [|v vs] ws Hl Hn H pre Hp; try discriminate.
    - reflexivity.
    - inversion H as [|? w ? ws' Hv Hvs]; subst. inversion Hn as [|? ? Hk Hn']; subst.
      cbn [map foldM fst snd combine].
      assert (D : dget key_eqb (pre ++ (k, v) :: combine ks vs) k = Some v).
      { clear -Hp. assert (Hk : ~ In k (map fst pre)) by (apply Hp; now left). clear Hp.
        induction pre as [|[k' v'] pre IH]; cbn in *.
        - now rewrite key_eqb_refl'.
        - destruct (key_eqb k' k) eqn:E; [apply key_eqb_eq in E; intuition|auto]. }
      assert (S : dset key_eqb (pre ++ (k, v) :: combine ks vs) k w = (pre ++ [(k, w)]) ++ combine ks vs).
      { clear -Hp. assert (Hk : ~ In k (map fst pre)) by (apply Hp; now left). clear Hp.
        induction pre as [|[k' v'] pre IH]; cbn in *.
        - now rewrite key_eqb_refl'.
        - destruct (key_eqb k' k) eqn:E; [apply key_eqb_eq in E; intuition|]. now rewrite IH by auto. }
      rewrite D, Hv. cbn [rmap bind]. rewrite S.
      rewrite (IH vs ws'); auto.
      + now rewrite <- app_assoc.
      + intros k' Hk'. rewrite map_app, in_app_iff. cbn. intros [Q|[Q|[]]]; [|subst; tauto]. apply (Hp k'); [now right|exact Q]. }
  rewrite <- (app_nil_l (combine ks vs)). rewrite (G ks vs ws Hl Hn H []); auto.
Qed.
Definition hug_keys : list key := map kstr hug_cols.
Lemma hug_line_row d r t s : columns (hug_nums r) t -> token_end s ->
  hug_line d (t ++ s) = stack_dict true d (combine hug_keys (map (fun n => VStr (write_num n)) (hug_nums r))).
Proof. intros H Hs. unfold hug_line. rewrite (search_labelled hug_cols _ _ _ H eq_refl Hs). reflexivity. Qed.
Lemma hug_lines_fold ls rows : hug_lines ls rows -> forall d,
  foldM hug_line ls d = foldM (fun d r => stack_dict true d (combine hug_keys (map (fun n => VStr (write_num n)) (hug_nums r)))) rows d.
Proof.
  induction 1 as [|l ls rows Hl _ IH|r t s ls rows Ht Hs _ _ IH]; intros d; cbn [foldM]; [reflexivity| |].
  - unfold hug_line at 1. rewrite search_labelled_none by exact Hl. apply IH.
  - rewrite (hug_line_row _ _ _ _ Ht Hs). destruct (stack_dict true d _); cbn [bind]; auto.
Qed.
Lemma foldM_map {A B C} (f : C -> B -> result C) (g : A -> B) l : forall z,
  foldM f (map g l) z = foldM (fun z a => f z (g a)) l z.
Proof. induction l as [|x l IH]; intros z; cbn; [reflexivity|]. destruct (f z (g x)); cbn; auto. Qed.

Lemma hug_lines_ok ls rows : hug_lines ls rows ->
  Forall (fun r => Forall num_ok (hug_nums r) /\ Forall (fun n => fits (num_value n)) (hug_nums r)) rows.
Proof. induction 1; auto. constructor; auto. split; [eapply columns_ok; eassumption|assumption]. Qed.

Theorem hug_exact text ls rows : lines_of ls text -> hug_lines ls rows ->
  parse_hug_file (file_lines text) = Ok (VDict true
    (match rows with
     | [] => []
     | _ => [(kstr "compression", VTuple (map (fun r => fval (hr_compression r)) rows));
             (kstr "temperature", VTuple (map (fun r => fval (hr_temperature r)) rows));
             (kstr "pressure", VTuple (map (fun r => fval (hr_pressure r)) rows));
             (kstr "energy", VTuple (map (fun r => fval (hr_energy r)) rows))]
     end)).
Proof.
  intros Ht Hl. rewrite (file_lines_of _ _ Ht). unfold parse_hug_file. rewrite (hug_lines_fold _ _ Hl).
  pose proof (hug_lines_ok _ _ Hl) as Hok. clear Hl Ht ls text.
  pose proof (stack_same hug_keys (map (fun r => map (fun n => VStr (write_num n)) (hug_nums r)) rows)) as S.
  rewrite foldM_map in S. rewrite S; clear S.
  - cbn [bind]. destruct rows as [|r0 rows]; [reflexivity|].
    change (map (fun r => map (fun n => VStr (write_num n)) (hug_nums r)) (r0 :: rows)) with
      (map (fun n => VStr (write_num n)) (hug_nums r0) :: map (fun r => map (fun n => VStr (write_num n)) (hug_nums r)) rows) at 1.
    cbn match. set (rs := r0 :: rows) in *.
    assert (C : cols_of (length hug_keys) (map (fun r => map (fun n => VStr (write_num n)) (hug_nums r)) rs) =
       [map (fun r => VStr (write_num (hr_compression r))) rs; map (fun r => VStr (write_num (hr_temperature r))) rs;
        map (fun r => VStr (write_num (hr_pressure r))) rs; map (fun r => VStr (write_num (hr_energy r))) rs]).
    { unfold cols_of. cbn [length hug_keys hug_cols map seq]. unfold col.
      clear; induction rs as [|r rs IH]; [reflexivity|]. cbn [map flat_map hug_nums nth_error app] in *.
      injection IH as I1 I2 I3 I4. now rewrite I1, I2, I3, I4. }
    rewrite C. clear C.
    assert (F : forall g, (forall r, In (g r) (hug_nums r)) ->
      mapM (to_type TFloat) (map (fun r => VStr (write_num (g r))) rs) = Ok (map (fun r => fval (g r)) rs)).
    { intros g Hg. apply mapM_map. intros r Hr. rewrite Forall_forall in Hok. destruct (Hok r Hr) as [H1 H2].
      rewrite Forall_forall in H1, H2. apply to_float; [apply num_ok_wf|]; auto. }
    pose proof (F hr_compression ltac:(cbn; auto)) as F1. pose proof (F hr_temperature ltac:(cbn; auto)) as F2.
    pose proof (F hr_pressure ltac:(cbn; auto)) as F3. pose proof (F hr_energy ltac:(cbn; auto)) as F4.
    change (map (fun c => (kstr c, TFloat)) hug_cols) with (map (fun k => (k, TFloat)) hug_keys).
    match goal with |- context [lists_val (combine _ ?cs)] =>
      change (lists_val (combine hug_keys cs)) with (combine hug_keys (map VList cs)) end.
    rewrite (fix_keys _ _ _ [VTuple (map (fun r => fval (hr_compression r)) rs); VTuple (map (fun r => fval (hr_temperature r)) rs);
      VTuple (map (fun r => fval (hr_pressure r)) rs); VTuple (map (fun r => fval (hr_energy r)) rs)]);
      [reflexivity|reflexivity|repeat constructor; cbn; intuition discriminate|].
    repeat constructor; cbn [to_type]; [rewrite F1|rewrite F2|rewrite F3|rewrite F4]; reflexivity.
  - repeat constructor; cbn; intuition discriminate.
  - apply Forall_forall. intros x Hx. apply in_map_iff in Hx as (r & <- & _). reflexivity.
Qed.

(** ** *_fmt *)
Definition ival (n : num) : pyval := VInt (int_value n).
Lemma to_int n : num_wf n -> is_int n -> to_type TInt (VStr (write_num n)) = Ok (ival n).
Proof. intros H F. cbn. now rewrite py_int_num. Qed.

Lemma skip_to_found pre line rest : Forall (fun l => ~ mentions "END header" l) pre -> mentions "END header" line ->
  skip_to_end_header (pre ++ line :: rest) = Ok (line, rest).
Proof.
  intros H Hl. apply mentions_iff in Hl. induction H as [|l pre Hn _ IH]; cbn [app skip_to_end_header].
  - now rewrite Hl.
  - rewrite mentions_iff in Hn. apply not_true_is_false in Hn. now rewrite Hn.
Qed.

Lemma no_dquote s : ~ In dquote s -> forallb (fun c => negb (Ascii.eqb c dquote)) s = true.
Proof.
  intros H. apply forallb_forall. intros c Hc. destruct (Ascii.eqb_spec c dquote); [subst; contradiction|reflexivity].
Qed.
Lemma fmt_cols_spec a cols b : ~ In dquote a -> ~ In dquote cols -> cols <> [] ->
  fmt_cols (a ++ dquote :: cols ++ dquote :: b) = Ok cols.
Proof.
  intros Ha Hc Hn. unfold fmt_cols, re_search.
  replace (a ++ dquote :: cols ++ dquote :: b) with (a ++ ([dquote] ++ cols ++ [dquote]) ++ b)
    by (now rewrite <- ?app_assoc).
  rewrite (search_from_pre _ _ _ _ _ [("1"%string, cols)]); [|apply skips_first; [reflexivity|]|].
  - reflexivity.
  - apply forallb_forall. intros c Hin. destruct (first QUOTED_RE c) eqn:E; [|reflexivity].
    cbn in E. rewrite orb_false_r in E. apply Ascii.eqb_eq in E. subst. contradiction.
  - apply fp_seq with (c1 := []); [apply fp_char|]. apply fp_seq with (c1 := [("1"%string, cols)]); [|apply fp_char].
    apply fp_grp, fp_plus_chr; [now apply no_dquote|exact Hn|reflexivity].
Qed.

Lemma cut_length P ws s : cut P ws s -> 2 * length ws <= S (length s) /\ ((forall c t, s = c :: t -> ~ P c) -> 2 * length ws <= length s).
Proof.
  induction 1 as [|g w s ws Hg Hw HP Hs Hc [_ IH]]; cbn [length]; [lia|]. specialize (IH Hs).
  rewrite !app_length. destruct w as [|x w]; [contradiction|]. cbn [length]. split; [lia|].
  intros H. destruct g as [|y g]; cbn [length]; [|lia]. exfalso. apply (H x (w ++ s)); [reflexivity|apply HP; now left].
Qed.

Definition grid_vals (r : grid_row) : list pyval := VTuple [ival (g_x r); ival (g_y r); ival (g_z r)] :: map fval (g_vals r).
Lemma zip_strict_ok {A B} : forall (a : list A) (b : list B), length a = length b -> zip_strict a b = Ok (combine a b).
Proof. induction a as [|x a IH]; intros [|y b] H; try discriminate; cbn; [reflexivity|]. now rewrite IH by (now inversion H). Qed.
Lemma map_combine_key (names : list str) : forall (vs : list pyval),
  map (fun pv => (KStr (fst pv), snd pv)) (combine names vs) = combine (map KStr names) vs.
Proof. induction names as [|n names IH]; intros [|v vs]; cbn; auto. now rewrite IH. Qed.
Lemma combine_fst {A B} : forall (a : list A) (b : list B), length a = length b -> map fst (combine a b) = a.
Proof. induction a as [|x a IH]; intros [|y b] H; try discriminate; cbn; [reflexivity|]. now rewrite IH by (now inversion H). Qed.

Lemma write_num_ne n : num_wf n -> write_num n <> [].
Proof.
  intros (H & H2 & _) E. unfold write_num in E. apply app_eq_nil in E as [_ E]. apply app_eq_nil in E as [E1 E2].
  apply app_eq_nil in E2 as [E2 _]. destruct (n_frac n); [discriminate|]. apply H2; auto. destruct (n_int n); [reflexivity|discriminate].
Qed.
Lemma cut_not_blank w ws l : cut nonblank (w :: ws) l -> isempty (strip l) = false.
Proof.
  intros H. apply not_true_is_false. intros E. apply strip_empty in E. unfold blanks in E. rewrite Forall_forall in E.
  inversion H as [|g ? s ? Hg Hw HP]; subst. destruct w as [|c w]; [contradiction|].
  apply (HP c); [now left|]. apply E. apply in_or_app. right. now left.
Qed.

Lemma fmt_line_row names d l r : NoDup names -> ~ In ($"q") names -> grid_line (length names) l r ->
  fmt_line names d l = stack_dict true d (combine (kstr "q" :: map KStr names) (grid_vals r)).
Proof.
  intros Hn Hq [Hc Hi Hv Hl]. unfold fmt_line. rewrite (cut_not_blank _ _ _ Hc).
  rewrite (split_cut _ _ Hc). cbn [map firstn skipn].
  rewrite !Forall_cons_iff in Hi. destruct Hi as (X & Y & Z & _).
  unfold to_types. cbn [mapM]. rewrite !to_int by tauto. cbn [bind].
  erewrite mapM_map.
  2:{ intros n Hin. rewrite Forall_forall in Hv. apply to_float; apply Hv in Hin; tauto. }
  cbn [bind]. rewrite zip_strict_ok by now rewrite map_length. cbn [bind]. f_equal.
  rewrite map_combine_key. change ((kstr "q", ?x) :: combine ?a ?b) with (combine (kstr "q" :: a) (x :: b)).
  rewrite (dict_of_nodup _ key_eqb_spec); [reflexivity|].
  rewrite combine_fst by (cbn; now rewrite !map_length, Hl). constructor.
  - intros H. apply in_map_iff in H as (y & E & Hy). injection E as ->. contradiction.
  - apply FinFun.Injective_map_NoDup; [|exact Hn]. intros a b E. now injection E.
Qed.
Lemma grid_lines_fold names ls rows : NoDup names -> ~ In ($"q") names -> grid_lines (length names) ls rows -> forall d,
  foldM (fmt_line names) ls d = foldM (fun d r => stack_dict true d (combine (kstr "q" :: map KStr names) (grid_vals r))) rows d.
Proof.
  intros Hn Hq. induction 1 as [|l ls rows Hl _ IH|l r ls rows Hr _ IH]; intros d; cbn [foldM]; [reflexivity| |].
  - unfold fmt_line at 1. apply strip_empty in Hl. rewrite Hl. apply IH.
  - rewrite (fmt_line_row _ _ _ _ Hn Hq Hr). destruct (stack_dict true d _); cbn [bind]; auto.
Qed.
Lemma lists_combine ks (cs : list (list pyval)) : lists_val (combine ks cs) = combine ks (map VList cs).
Proof. unfold lists_val. revert cs. induction ks as [|k ks IH]; intros [|c cs]; cbn; auto. now rewrite IH. Qed.

Theorem fmt_exact text pre line ls a cols b w1 w2 w3 names rows :
  lines_of (pre ++ line :: ls) text ->
  Forall (fun l => ~ mentions "END header" l) pre -> mentions "END header" line ->
  line = a ++ dquote :: cols ++ dquote :: b -> ~ In dquote a -> ~ In dquote cols ->
  cut nonblank (w1 :: w2 :: w3 :: names) cols -> NoDup names -> ~ In ($"q") names ->
  grid_lines (length names) ls rows ->
  parse_kpt_info (file_lines text) = Ok (VDict true
    (match rows with
     | [] => []
     | _ => (kstr "q", VList (map (fun r => VTuple [ival (g_x r); ival (g_y r); ival (g_z r)]) rows)) ::
            combine (map KStr names)
              (map (fun j => VList (map fval (nth_column j (map g_vals rows)))) (seq 0 (length names)))
     end)).
Proof.
  intros Ht Hp Hl -> Ha Hcq Hc Hn Hq Hg. rewrite (file_lines_of _ _ Ht). unfold parse_kpt_info.
  rewrite (skip_to_found _ _ _ Hp Hl). cbn [bind].
  rewrite fmt_cols_spec; auto; [|intros ->; apply cut_empty in Hc; discriminate]. cbn [bind].
  assert (L : 3 <? length cols = true).
  { apply Nat.ltb_lt. pose proof (proj1 (cut_length _ _ _ Hc)). cbn [length] in *. lia. }
  unfold fmt_props. rewrite L, (split_cut _ _ Hc). cbn [skipn bind].
  rewrite (grid_lines_fold _ _ _ Hn Hq Hg).
  assert (Hlen : Forall (fun r => length (g_vals r) = length names) rows).
  { clear -Hg. induction Hg as [| |? ? ? ? []]; auto. }
  pose proof (stack_same (kstr "q" :: map KStr names) (map grid_vals rows)) as S.
  rewrite foldM_map in S. rewrite S; clear S.
  - cbn [bind]. destruct rows as [|r0 rows]; [reflexivity|].
    change (map grid_vals (r0 :: rows)) with (grid_vals r0 :: map grid_vals rows) at 1. cbn match.
    set (rs := r0 :: rows) in *. do 2 f_equal. rewrite lists_combine.
    unfold cols_of. cbn [length seq map combine]. rewrite map_length. f_equal.
    + do 2 f_equal. clear. induction rs as [|r rs IH]; [reflexivity|]. cbn in *. now rewrite <- IH.
    + f_equal. rewrite <- seq_shift, !map_map. apply map_ext. intros j. f_equal.
      clear. induction rs as [|r rs IH]; [reflexivity|].
      unfold col, nth_column in *. cbn [map flat_map].
      change (nth_error (grid_vals r) (S j)) with (nth_error (map fval (g_vals r)) j).
      rewrite IH, map_app. f_equal. rewrite nth_error_map. now destruct (nth_error (g_vals r) j).
  - constructor.
    + intros H. apply in_map_iff in H as (y & E & Hy). injection E as ->. contradiction.
    + apply FinFun.Injective_map_NoDup; [|exact Hn]. intros x y E. now injection E.
  - apply Forall_forall. intros x Hx. apply in_map_iff in Hx as (r & <- & Hr). rewrite Forall_forall in Hlen.
    cbn. now rewrite !map_length, Hlen.
Qed.

Lemma foldM_split {A S} (f : S -> A -> result S) : forall l l' st, foldM f (l ++ l') st = (st' <- foldM f l st ;; foldM f l' st').
Proof. induction l as [|x l IH]; intros l' st; cbn; [reflexivity|]. destruct (f st x); cbn; auto. Qed.
(** A row with too few or too many values. *)
Lemma zip_strict_ragged {A B} (a : list A) : forall b : list B, length a <> length b -> zip_strict a b = Err ValueError.
Proof.
  induction a as [|x a IH]; intros [|y b] H; [now elim H|reflexivity|reflexivity|cbn [zip_strict]].
  rewrite IH by (cbn in H; congruence). reflexivity.
Qed.
Lemma fmt_line_ragged names d l r k : grid_line k l r -> k <> length names -> fmt_line names d l = Err ValueError.
Proof.
  intros [Hc Hi Hv Hl] Hk. unfold fmt_line. rewrite (cut_not_blank _ _ _ Hc).
  rewrite (split_cut _ _ Hc). cbn [map firstn skipn].
  rewrite !Forall_cons_iff in Hi. destruct Hi as (X & Y & Z & _).
  unfold to_types. cbn [mapM]. rewrite !to_int by tauto. cbn [bind].
  erewrite mapM_map.
  2:{ intros n Hin. rewrite Forall_forall in Hv. apply to_float; apply Hv in Hin; tauto. }
  cbn [bind]. rewrite zip_strict_ragged; [reflexivity|]. rewrite map_length. congruence.
Qed.
Theorem fmt_ragged text pre line ls l ls' a cols b w1 w2 w3 names rows r k :
  lines_of (pre ++ line :: ls ++ l :: ls') text ->
  Forall (fun l => ~ mentions "END header" l) pre -> mentions "END header" line ->
  line = a ++ dquote :: cols ++ dquote :: b -> ~ In dquote a -> ~ In dquote cols ->
  cut nonblank (w1 :: w2 :: w3 :: names) cols -> NoDup names -> ~ In ($"q") names ->
  grid_lines (length names) ls rows -> grid_line k l r -> k <> length names ->
  parse_kpt_info (file_lines text) = Err ValueError.
Proof.
  intros Ht Hp Hl -> Ha Hcq Hc Hn Hq Hg Hr Hk. rewrite (file_lines_of _ _ Ht). unfold parse_kpt_info.
  rewrite (skip_to_found _ _ _ Hp Hl). cbn [bind].
  rewrite fmt_cols_spec; auto; [|intros ->; apply cut_empty in Hc; discriminate]. cbn [bind].
  assert (L : 3 <? length cols = true).
  { apply Nat.ltb_lt. pose proof (proj1 (cut_length _ _ _ Hc)). cbn [length] in *. lia. }
  unfold fmt_props. rewrite L, (split_cut _ _ Hc). cbn [skipn bind].
  assert (Hlen : Forall (fun r => length (g_vals r) = length names) rows).
  { clear -Hg. induction Hg as [| |? ? ? ? []]; auto. }
  assert (E : exists d, foldM (fmt_line names) ls [] = Ok d).
  { rewrite (grid_lines_fold _ _ _ Hn Hq Hg).
    pose proof (stack_same (kstr "q" :: map KStr names) (map grid_vals rows)) as S.
    rewrite foldM_map in S. rewrite S; clear S; [eauto| |].
    - constructor.
      + intros H. apply in_map_iff in H as (y & E & Hy). injection E as ->. contradiction.
      + apply FinFun.Injective_map_NoDup; [|exact Hn]. intros x y E. now injection E.
    - apply Forall_forall. intros x Hx. apply in_map_iff in Hx as (r' & <- & Hr'). rewrite Forall_forall in Hlen.
      cbn. now rewrite !map_length, Hlen. }
  destruct E as [d E]. rewrite foldM_split, E. cbn [bind foldM]. rewrite (fmt_line_ragged _ _ _ _ _ Hr Hk). reflexivity.
Qed.
