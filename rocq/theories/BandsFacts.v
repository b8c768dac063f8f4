(** Facts about the .bands parser. *)
From Verif Require Import PyBase PyFacts PyVal IntStr Regex RegexFacts RegexComplete CastepRes NumSpec SpecLine NumFacts NumVal NumProps
  SpecTable SpecStr StrUtilFacts SpecText SpecBands Stream StreamFacts TypeConv TypeConvFacts ColumnFacts DictUtil DictFacts TextParsersFacts Header HeaderFacts Bands.
Local Open Scope list_scope.
Local Open Scope nat_scope.

(** ** Eigenvalue lines *)
Lemma at_end_iff s : at_end s = true <-> s = [] \/ s = [newline].
Proof.
  unfold at_end. destruct s as [|c [|d s]]; split; intros H; auto.
  - right. apply Ascii.eqb_eq in H. now subst.
  - destruct H as [H|H]; [discriminate|]. injection H as ->. reflexivity.
  - discriminate.
  - destruct H as [H|H]; discriminate.
Qed.
Lemma plain_written sg a b : a ++ b <> [] ->
  let n := {| n_sign := sg; n_int := a; n_frac := Some b; n_exp := None |} in
  plain_num n /\ write_num n = write_sign sg ++ mant_frac a b.
Proof.
  intros H. split.
  - unfold plain_num, num_wf. cbn. repeat split; auto; discriminate.
  - unfold write_num, mant_frac. cbn. now rewrite app_nil_r.
Qed.
Lemma eigen_iff l : re_match_test EIGENVALUE_RE (strip l) = true <-> exists n, plain_num n /\ trimmed l (write_num n).
Proof.
  rewrite match_test_iff by reflexivity. unfold EIGENVALUE_RE. cbn [RSeqs]. split.
  - intros (p' & s' & c' & D). destruct D as (p0 & s0 & c0 & D0 & p1 & s1 & c1 & D1 & p2 & s2 & c2 & D2 & D3).
    cbn [den] in D0, D3. destruct D0 as (_ & <- & <- & <-). destruct D3 as (E & _ & <- & _).
    apply den_rep_chr in D1 as (w & Ew & _ & _ & Hw & _ & _).
    apply den_FNUMBER in D2 as (sg & a & b & Hab & -> & _ & _).
    destruct (strip_trimmed l) as (x & y & El & Hx & Hy & Hh & Ht).
    destruct (plain_written sg a b Hab) as [Hp Hn]. eexists; split; [exact Hp|]. rewrite Hn.
    assert (w = []). { destruct w as [|c w]; [reflexivity|]. exfalso. cbn in Hw. apply andb_true_iff in Hw as [Hw _].
      rewrite Ew in Hh. eapply Hh; [reflexivity|]. now apply blank_iff. }
    subst w. cbn [app] in Ew.
    assert (s2 = []). { apply at_end_iff in E as [E|E]; [exact E|]. exfalso. subst s2. rewrite app_assoc in Ew.
      eapply Ht; [exact Ew|]. now apply blank_iff. }
    subst s2. rewrite app_nil_r in Ew. rewrite <- Ew. exists x, y. auto.
  - intros (n & (Hw & Hf & He) & Ht). rewrite (trimmed_strip _ _ Ht).
    destruct (n_frac n) as [b|] eqn:Ef; [|congruence].
    assert (Hab : n_int n ++ b <> []). { destruct Hw as [Hw _]. unfold frac_digits in Hw. now rewrite Ef in Hw. }
    destruct (den_FNUMBER_intro (n_sign n) (n_int n) b None [] [] Hab) as [p' D].
    exists p', [], []. exists None, (write_num n), []. split; [cbn; auto|].
    exists None, (write_num n), []. split; [apply (den_rep_intro true 0 None is_space []); auto|].
    exists p', [], []. split; [|cbn; auto]. unfold write_num. rewrite Ef, He. cbn [app] in *.
    rewrite app_nil_r in *. exact D.
Qed.

Lemma not_begins w c t l n : list_ascii_of_string w = c :: t -> is_mant c = false -> is_sign c = false -> is_space c = false ->
  trimmed l (write_num n) -> num_wf n -> startswith ($w) l = false.
Proof.
  intros Hw Hm Hs Hb (a & b & -> & Ha & _) Hn.
  destruct (startswith ($w) (a ++ write_num n ++ b)) eqn:E; [|reflexivity]. exfalso.
  apply startswith_iff in E as (r & E). rewrite Hw in E. cbn [app] in E.
  destruct a as [|x a].
  - cbn [app] in E. rewrite write_num_split, <- !app_assoc in E. destruct (n_sign n); cbn [write_sign app] in E.
    + destruct (mant_cons _ _ (wf_mant _ Hn)) as (x & u & Ex & Hx). rewrite Ex in E. cbn in E. injection E as -> _. congruence.
    + injection E as <- _. discriminate.
    + injection E as <- _. discriminate.
  - cbn in E. injection E as -> _. inversion Ha as [|? ? Hc _]. apply blank_iff in Hc. congruence.
Qed.

Lemma begins_iff w l : begins w l <-> startswith ($w) l = true.
Proof. rewrite startswith_iff. reflexivity. Qed.

(** ** The states of the loop *)
Definition k_dict0 (k : kpoint) : dict :=
  [(kstr "qpt", VTuple (map fval (kp_pos k))); (kstr "weight", fval (kp_weight k))].
Definition k_state (bs : list pyval) (k : kpoint) : bstate :=
  match kp_down k with
  | None => {| b_bands := bs; b_q := k_dict0 k; b_accum := map write_num (kp_up k); b_current := "band" |}
  | Some d => {| b_bands := bs; b_q := k_dict0 k ++ [(kstr "band_up", VTuple (map fval (kp_up k)))];
                 b_accum := map write_num d; b_current := "band_down" |}
  end.
Definition k_out (k : kpoint) : pyval :=
  VDict false (k_dict0 k ++
    match kp_down k with
    | None => [(kstr "band", VTuple (map fval (kp_up k))); (kstr "spin_comp", VBool false)]
    | Some d => [(kstr "band_up", VTuple (map fval (kp_up k))); (kstr "band_down", VTuple (map fval d));
                 (kstr "spin_comp", VBool true)]
    end).
Definition good (ns : list num) := Forall num_wf ns /\ Forall (fun n => fits (num_value n)) ns.

Lemma eigen_good ls ns : eigenvalues ls ns -> good ns.
Proof.
  induction 1 as [|l n ls ns Ht [Hw _] Hf _ [IH1 IH2]|]; [split; constructor| |assumption].
  split; constructor; auto.
Qed.
Lemma block_good k ls : kpoint_block k ls -> good (kp_up k) /\ (forall d, kp_down k = Some d -> good d).
Proof.
  destruct 1 as [l l1 ls _ _ He Hd|l l1 l2 ls ls' d z _ _ He _ _ Hd He'].
  - split; [eapply eigen_good; eassumption|]. intros d E. congruence.
  - split; [eapply eigen_good; eassumption|]. intros d' E. assert (d = d') by congruence. subst. eapply eigen_good; eassumption.
Qed.
Lemma finish_state bs k : good (kp_up k) -> (forall d, kp_down k = Some d -> good d) ->
  exists q, finish_q (b_q (k_state bs k)) (b_current (k_state bs k)) (b_accum (k_state bs k)) = Ok q /\ VDict false q = k_out k.
Proof.
  intros [H1 H2] H. unfold k_state, k_out, finish_q. destruct (kp_down k) as [d|] eqn:E; cbn [b_q b_current b_accum].
  - destruct (H d eq_refl) as [H3 H4]. rewrite to_tuple_nums by assumption. eexists. split; [reflexivity|]. reflexivity.
  - rewrite to_tuple_nums by assumption. eexists. split; [reflexivity|]. reflexivity.
Qed.
Lemma state_q bs k : isempty (b_q (k_state bs k)) = false.
Proof. unfold k_state. now destruct (kp_down k). Qed.
Lemma state_bands bs k : b_bands (k_state bs k) = bs.
Proof. unfold k_state. now destruct (kp_down k). Qed.

Lemma eigen_fold ls ns : eigenvalues ls ns -> forall clash bs q acc cur rest,
  foldM (bands_line clash) (ls ++ rest) {| b_bands := bs; b_q := q; b_accum := acc; b_current := cur |} =
  foldM (bands_line clash) rest {| b_bands := bs; b_q := q; b_accum := acc ++ map write_num ns; b_current := cur |}.
Proof.
  induction 1 as [|l n ls ns Ht Hp Hf _ IH|l ls ns H1 H2 H3 _ IH]; intros clash bs q acc cur rest.
  - cbn. now rewrite app_nil_r.
  - cbn [app foldM]. unfold bands_line at 1.
    rewrite (not_begins "K-point" _ _ _ _ eq_refl eq_refl eq_refl eq_refl Ht (proj1 Hp)).
    rewrite (not_begins "Spin component" _ _ _ _ eq_refl eq_refl eq_refl eq_refl Ht (proj1 Hp)).
    rewrite (proj2 (eigen_iff l)) by eauto. cbn [bind b_bands b_q b_accum b_current]. rewrite IH.
    rewrite (trimmed_strip _ _ Ht). cbn [map]. now rewrite <- app_assoc.
  - cbn [app foldM]. unfold bands_line at 1.
    rewrite (not_true _ _ (begins_iff _ _) H1), (not_true _ _ (begins_iff _ _) H2).
    assert (E : re_match_test EIGENVALUE_RE (strip l) = false) by (apply (not_true _ _ (iff_sym (eigen_iff l))); exact H3).
    rewrite E. cbn [bind]. apply IH.
Qed.

Definition b_init : bstate := {| b_bands := []; b_q := []; b_accum := []; b_current := "band" |}.
Inductive ready : bstate -> list pyval -> Prop :=
| ready_init : ready b_init []
| ready_more bs k : good (kp_up k) -> (forall d, kp_down k = Some d -> good d) -> ready (k_state bs k) (bs ++ [k_out k]).

Lemma kline_step st bs pos w l : ready st bs -> kpoint_line pos w l ->
  bands_line false st l = Ok {| b_bands := bs; b_q := [(kstr "qpt", VTuple (map fval pos)); (kstr "weight", fval w)];
                                b_accum := []; b_current := "band" |}.
Proof.
  intros Hr (Hb & Hn & w1 & w2 & Hc). unfold bands_line. apply begins_iff in Hb. rewrite Hb.
  assert (E : (if isempty (b_q st) then Ok st
            else q <- finish_q (b_q st) (b_current st) (b_accum st) ;;
                 bs <- append_q false (b_bands st) q ;;
                 Ok {| b_bands := bs; b_q := b_q st; b_accum := []; b_current := "band" |})
          = Ok {| b_bands := bs; b_q := b_q st; b_accum := []; b_current := "band" |}).
  { destruct Hr as [|bs k G1 G2]; [reflexivity|]. rewrite state_q.
    destruct (finish_state bs k G1 G2) as (q & -> & Eq). cbn [bind append_q]. now rewrite state_bands, Eq. }
  rewrite E. cbn [bind b_bands b_accum b_current]. rewrite (split_cut _ _ Hc), last_of_snoc. cbn [bind].
  apply Forall_app in Hn as [Hp Hw]. inversion Hw as [|? ? [W1 W2] _]. subst.
  rewrite to_tuple_nums; [|eapply Forall_impl; [|exact Hp]; cbn; tauto|eapply Forall_impl; [|exact Hp]; cbn; tauto].
  rewrite builtin_num by assumption. reflexivity.
Qed.
Lemma spin_not_k z l : spin_line z l -> startswith ($"K-point") l = false.
Proof. intros ((r & ->) & _). reflexivity. Qed.
Lemma spin_step clash z l st : spin_line z l -> bands_line clash st l =
  if (z =? 1)%Z then Ok st
  else up <- to_tuple TFloat (b_accum st) ;;
         Ok {| b_bands := b_bands st; b_q := dset key_eqb (b_q st) (kstr "band_up") up;
               b_accum := []; b_current := "band_down" |}.
Proof.
  intros H. pose proof (spin_not_k _ _ H) as Hk. destruct H as (Hb & w1 & w2 & n & ws & Hc & Hi & Hw & <-).
  unfold bands_line. rewrite Hk. apply begins_iff in Hb. rewrite Hb. rewrite (split_cut _ _ Hc). cbn [nthE nth_error bind].
  now rewrite py_int_num.
Qed.

Lemma block_fold st bs k ls rest : ready st bs -> kpoint_block k ls ->
  foldM (bands_line false) (ls ++ rest) st = foldM (bands_line false) rest (k_state bs k).
Proof.
  intros Hr H. pose proof (block_good _ _ H) as [G1 G2].
  destruct H as [l l1 ls Hl H1 He Hd|l l1 l2 ls ls' d z Hl H1 He Hz H2 Hd He']; cbn [app].
  - cbn [foldM]. rewrite (kline_step _ _ _ _ _ Hr Hl). cbn [bind]. rewrite (spin_step _ _ _ _ H1), Z.eqb_refl. cbn [bind].
    rewrite (eigen_fold _ _ He). cbn [app]. unfold k_state. now rewrite Hd.
  - cbn [foldM]. rewrite (kline_step _ _ _ _ _ Hr Hl). cbn [bind]. rewrite (spin_step _ _ _ _ H1), Z.eqb_refl. cbn [bind].
    rewrite <- app_assoc, (eigen_fold _ _ He). cbn [app foldM]. rewrite (spin_step _ _ _ _ H2).
    apply Z.eqb_neq in Hz. rewrite Hz. cbn [b_accum b_bands b_q]. rewrite to_tuple_nums by apply G1. cbn [bind].
    rewrite (eigen_fold _ _ He'). cbn [app]. unfold k_state. rewrite Hd. reflexivity.
Qed.
Lemma blocks_fold ks ls : kpoint_blocks ks ls -> forall st bs, ready st bs ->
  exists st', foldM (bands_line false) ls st = Ok st' /\ ready st' (bs ++ map k_out ks).
Proof.
  induction 1 as [|k ks ls ls' Hk _ IH]; intros st bs Hr.
  - exists st. cbn. now rewrite app_nil_r.
  - rewrite (block_fold _ _ _ _ _ Hr Hk). destruct (block_good _ _ Hk) as [G1 G2].
    destruct (IH (k_state bs k) (bs ++ [k_out k])) as (st' & E & R); [now constructor|].
    exists st'. split; [exact E|]. cbn [map]. now rewrite <- app_assoc in R.
Qed.

(** ** The whole file *)
Lemma other_nil extra : extra <> ""%string -> head_line extra [] None.
Proof.
  intros H. constructor.
  - intros (a & r & E & _). destruct a; discriminate.
  - intros (a & r & E). destruct a; discriminate.
  - apply (no_columns ["x"; "y"; "z"]%string). reflexivity.
  - intros (a & r & E). destruct a; [|discriminate]. destruct extra; [congruence|discriminate].
Qed.
Lemma vector_has ns l : vector_line ns l -> has_columns 3 l.
Proof.
  intros (Hl & _ & t & s & -> & Ht & _). exists [], t, s, ns. auto.
Qed.
Lemma vector_end ns l : vector_line ns l -> bands_header_end l = true.
Proof.
  intros (Hl & _ & t & s & -> & Ht & Hs). unfold bands_header_end. eapply threevec_row; [exact Ht|exact Hl|].
  intros c u ->. now inversion Hs.
Qed.
Lemma dupdate_fresh (items : dict) : forall d, NoDup (map fst (d ++ items)) -> dupdate key_eqb d items = d ++ items.
Proof.
  induction items as [|[k v] items IH]; intros d H; [now rewrite app_nil_r|].
  cbn [dupdate fold_left]. rewrite dset_new.
  - change (dupdate key_eqb (d ++ [(k, v)]) items = d ++ (k, v) :: items). rewrite IH; rewrite <- app_assoc; [reflexivity|exact H].
  - apply (dget_none key_eqb key_eqb_spec). rewrite map_app in H. cbn in H. apply NoDup_remove_2 in H. intros C. apply H.
    apply in_or_app. now left.
Qed.

Lemma NoDup_app_intro {A} (a b : list A) : NoDup a -> NoDup b -> (forall x, In x a -> ~ In x b) -> NoDup (a ++ b).
Proof.
  induction 1 as [|x a Hx _ IH]; intros Hb Hd; [exact Hb|]. cbn. constructor.
  - intros C. apply in_app_or in C as [C|C]; [now apply Hx|]. eapply Hd; [now left|exact C].
  - apply IH; [exact Hb|]. intros y Hy. apply Hd. now right.
Qed.

Definition bands_keys := ["bands"; "unit_cell"; "coords"]%string.
Theorem bands_exact text es v1 v2 v3 ks : bands_file es v1 v2 v3 ks (file_lines text) ->
  NoDup (map fst es) -> Forall (fun k => ~ In k (map fst es)) (map text_of bands_keys) ->
  parse_bands_file (file_lines text) =
  Ok (VDict false ((kstr "bands", VList (map k_out ks)) :: map hentry es ++
     [(kstr "unit_cell", VList [VTuple (map fval v1); VTuple (map fval v2); VTuple (map fval v3)]);
      (kstr "coords", VDict true [])])).
Proof.
  intros H Hnd Hk. destruct H as [hs u l1 l2 l3 body Hh Hno Hu L1 L2 L3 Hb].
  assert (NDall : NoDup (map fst ((kstr "bands", VNone) :: map hentry es ++ [(kstr "unit_cell", VNone); (kstr "coords", VNone)]))).
  { inversion Hk as [|? ? K1 Hk']. inversion Hk' as [|? ? K2 Hk'']. inversion Hk'' as [|? ? K3 _]. subst.
    assert (IN : forall x, In (KStr x) (map fst (map hentry es)) -> In x (map fst es)).
    { intros x. rewrite map_map. rewrite !in_map_iff. intros (e & E & He). exists e. cbn in E. injection E as E. auto. }
    cbn [map fst]. rewrite map_app. constructor.
    - intros C. apply in_app_or in C as [C|[C|[C|[]]]]; [now apply K1, IN| discriminate | discriminate].
    - apply NoDup_app_intro.
      + rewrite map_map. cbn. replace (map (fun x => KStr (fst x)) es) with (map KStr (map fst es)) by now rewrite map_map.
        apply FinFun.Injective_map_NoDup; [|exact Hnd]. intros a b E. now injection E.
      + repeat constructor; cbn; [intros [C|[]]; discriminate|tauto].
      + intros x Hx [C|[C|[]]]; subst x; [now apply K2, IN|now apply K3, IN]. }
  unfold parse_bands_file, l_from_re. cbn [negb].
  rewrite l_scan_skip by (apply forallb_forall; intros x Hx; rewrite Forall_forall in Hno;
    unfold bands_header_end; now rewrite (threevec_none _ (Hno _ Hx))).
  cbn [l_scan]. assert (Eu : bands_header_end u = false) by (apply threevec_none; apply Hu). rewrite Eu.
  rewrite (vector_end _ _ L1), (vector_end _ _ L2), (vector_end _ _ L3). cbn [Nat.eqb orb bind].
  unfold parse_regular_header.
  assert (Hh' : head_lines "Fermi energy" ([] :: hs) es).
  { apply (hds_cons "Fermi energy" [] None); [apply other_nil; discriminate|exact Hh]. }
  change ([] :: hs ++ [u; l1; l2; l3]) with (([] :: hs) ++ [u; l1; l2; l3]).
  rewrite (header_loop_entries _ _ _ Hh'), (header_cell _ _ _ _ _ _ _ _ _ _ _ Hu L1 L2 L3).
  cbn [header_loop bind]. assert (Ef : forall t, fix_data_types [] t = Ok []).
  { intros t. unfold fix_data_types. induction t as [|[k v] t IH]; [reflexivity|]. cbn. exact IH. }
  rewrite Ef. cbn [bind].
  set (cell := VList [_; _; _]).
  assert (Ed : dset key_eqb (dset key_eqb (dupdate key_eqb [] (map hentry es)) (kstr "unit_cell") cell) (kstr "coords") (VDict true [])
     = map hentry es ++ [(kstr "unit_cell", cell); (kstr "coords", VDict true [])]).
  { change (dset key_eqb (dset key_eqb (dupdate key_eqb [] (map hentry es)) (kstr "unit_cell") cell) (kstr "coords") (VDict true []))
      with (dupdate key_eqb (dupdate key_eqb [] (map hentry es)) [(kstr "unit_cell", cell); (kstr "coords", VDict true [])]).
    rewrite <- (dupdate_app key_eqb []). apply (dupdate_fresh _ []). inversion NDall. cbn [app]. now rewrite map_app in *. }
  rewrite Ed. set (data := map hentry es ++ _).
  assert (Nd : NoDup (map fst ([(kstr "bands", VNone)] ++ data))).
  { unfold data. cbn [app map]. rewrite map_app. cbn [map fst app] in NDall. now rewrite map_app in NDall. }
  assert (Ec : dmem key_eqb data (kstr "bands") = false).
  { unfold dmem. rewrite (proj2 (dget_none key_eqb key_eqb_spec data (kstr "bands"))); [reflexivity|]. now inversion Nd. }
  rewrite Ec. destruct (blocks_fold _ _ Hb _ _ ready_init) as (st & E & R). fold b_init. rewrite E. cbn [bind app] in *.
  assert (Eb : (if isempty (b_q st) then Ok (b_bands st)
            else q <- finish_q (b_q st) (b_current st) (b_accum st) ;; append_q false (b_bands st) q) = Ok (map k_out ks)).
  { inversion R as [Ei Ek|bs k G1 G2 Ei Ek]; [reflexivity|]. rewrite state_q.
    destruct (finish_state bs k G1 G2) as (q & -> & Eq). cbn [bind append_q]. now rewrite state_bands, Eq. }
  rewrite Eb. cbn [bind]. rewrite dupdate_fresh by exact Nd. reflexivity.
Qed.
