(** Facts about the binary parsers. *)
From Coq Require Import Lia ZArith.
From Verif Require Import PyBase PyFacts PyVal IntStr Bytes SpecBytes BytesFacts NumProps Fortran SpecFortran FortranFacts FortranTyped
  DictUtil DictFacts SpecLine BinParsers SpecBin.
Local Open Scope list_scope.
Local Open Scope nat_scope.

Lemma short_int z : short (enc_int z).
Proof. unfold short. rewrite enc_int_len. reflexivity. Qed.
Lemma dec_int z : int32 z -> decodes (Scalar BInt) (enc_int z) (VInt z).
Proof. intros H. split; [apply short_int|now apply scalar_int]. Qed.
Lemma dec_ints zs : Forall int32 zs -> short (enc_ints zs) -> decodes (Array BInt) (enc_ints zs) (int_tuple zs).
Proof. intros H S. split; [exact S|now apply ints_roundtrip]. Qed.
Lemma dec_floats ds : Forall double ds -> short (enc_doubles ds) -> decodes (Array BFloat) (enc_doubles ds) (float_tuple ds).
Proof. intros H S. split; [exact S|now apply floats_roundtrip]. Qed.
Lemma dec_complexes ps : Forall complex_ok ps -> short (enc_complexes ps) ->
  decodes (Array BComplex) (enc_complexes ps) (complex_tuple ps).
Proof. intros H S. split; [exact S|now apply complex_roundtrip]. Qed.
Lemma dec_float d : double d -> decodes (Scalar BFloat) d (VFloat (FBits d)).
Proof. intros H. split; [|now apply scalar_float]. unfold short. unfold double in H. rewrite H. reflexivity. Qed.
Lemma dec_str s : ascii_text s -> short s -> decodes (Scalar BStr) s (VStr s).
Proof. intros H S. split; [exact S|]. now apply str_roundtrip. Qed.

(** ** cst_esp *)
Lemma esp_col x c d ds esp curr prev : d = col_record x c -> int32 x -> int32 (fst c) -> Forall complex_ok (snd c) ->
  esp_loop (d :: ds) esp curr prev =
  let flush := (match prev with None => true | Some q => negb (q =? x)%Z end) && negb (isempty curr) in
  esp_loop ds (if flush then esp ++ [curr] else esp) ((if flush then [] else curr) ++ [complex_tuple (snd c)]) (Some x).
Proof.
  intros -> Hx Hc Hd. unfold col_record. cbn [esp_loop].
  assert (E1 : firstn 8 (enc_int x ++ enc_int (fst c) ++ enc_complexes (snd c)) = enc_ints [x; fst c]).
  { unfold enc_ints. cbn [map concat]. rewrite app_nil_r. reflexivity. }
  assert (E2 : skipn 8 (enc_int x ++ enc_int (fst c) ++ enc_complexes (snd c)) = enc_complexes (snd c)) by reflexivity.
  rewrite E1, E2. unfold enc_ints. rewrite ints_roundtrip by auto. cbn [bind map unpack2 fst as_int].
  unfold enc_complexes. rewrite complex_roundtrip by exact Hd. reflexivity.
Qed.
(** More columns at the same x. *)
Lemma esp_same x cs : forall ds esp curr, int32 x -> curr <> [] ->
  Forall (fun c => int32 (fst c) /\ Forall complex_ok (snd c) /\ short (col_record x c)) cs ->
  esp_loop (map (col_record x) cs ++ ds) esp curr (Some x) =
  esp_loop ds esp (curr ++ map (fun c => complex_tuple (snd c)) cs) (Some x).
Proof.
  induction cs as [|c cs IH]; intros ds esp curr Hx Hn H; [cbn; now rewrite app_nil_r|].
  inversion H as [|? ? (H1 & H2 & H3) H']; subst. cbn [map app].
  rewrite (esp_col x c) by auto. cbv zeta. rewrite Z.eqb_refl. cbn [negb andb].
  rewrite IH; auto; [now rewrite <- app_assoc|]. intros E. now apply app_eq_nil in E as [E _].
Qed.
Lemma esp_planes ps : forall esp curr prev, Forall plane_ok ps -> x_changes ps ->
  (prev = None /\ curr = [] \/ exists q, prev = Some q /\ curr <> [] /\ (forall p ps', ps = p :: ps' -> q <> fst p)) ->
  exists esp' curr', esp_loop (concat (map plane_records ps)) esp curr prev = Ok (esp', curr') /\
    map VList (esp' ++ [curr']) =
    map VList esp ++ (match ps, curr with _ :: _, [] => [] | _, _ => [VList curr] end) ++ map plane_value ps.
Proof.
  induction ps as [|p ps IH]; intros esp curr prev Hp Hx Hc.
  - exists esp, curr. split; [reflexivity|]. rewrite map_app. cbn. reflexivity.
  - inversion Hp as [|? ? (H1 & H2 & H3) Hp']; subst. destruct p as [x cs]. cbn [fst snd] in *.
    destruct cs as [|c cs]; [congruence|]. inversion H3 as [|? ? (G1 & G2 & G3) H3']; subst.
    cbn [map concat]. unfold plane_records at 1. cbn [map fst snd app].
    rewrite (esp_col x c) by auto. cbv zeta.
    assert (E : (match prev with None => true | Some q => negb (q =? x)%Z end) && negb (isempty curr) = negb (isempty curr)).
    { destruct Hc as [[-> ->]|(q & -> & Hn & Hd)]; [reflexivity|].
      specialize (Hd _ _ eq_refl). cbn in Hd. destruct (Z.eqb_spec q x); [congruence|reflexivity]. }
    rewrite E.
    assert (Ec : (if negb (isempty curr) then [] else curr) = []) by (destruct curr; reflexivity).
    rewrite Ec. cbn [app]. rewrite esp_same by (auto; discriminate).
    destruct (IH (if negb (isempty curr) then esp ++ [curr] else esp)
                 ([complex_tuple (snd c)] ++ map (fun c => complex_tuple (snd c)) cs) (Some x)) as (esp' & curr' & E1 & E2).
    + exact Hp'.
    + destruct ps; [exact I|]. now destruct Hx.
    + right. exists x. split; [reflexivity|]. split; [discriminate|]. intros p ps' ->. now destruct Hx.
    + exists esp', curr'. split; [exact E1|]. rewrite E2. clear.
      destruct ps; destruct curr as [|v l]; cbn [isempty negb map app plane_value]; try rewrite map_app; cbn [map app];
        rewrite <- ?app_assoc; reflexivity.
Qed.

Lemma firstn_map {A B} (f : A -> B) n l : firstn n (map f l) = map f (firstn n l).
Proof. revert l. induction n; intros [|x l]; cbn; congruence. Qed.
Lemma skipn_map {A B} (f : A -> B) n l : skipn n (map f l) = map f (skipn n l).
Proof. revert l. induction n; intros [|x l]; cbn; congruence. Qed.

Theorem esp_roundtrip spins g gs ps :
  int32 spins -> Forall int32 (g :: gs) -> short (enc_ints (g :: gs)) -> (0 <= g)%Z ->
  ps <> [] -> Forall plane_ok ps -> x_changes ps ->
  parse_cst_esp (esp_file spins (g :: gs) ps) =
  Ok ([(text "n_spins", VInt spins); (text "grid", int_tuple (g :: gs));
       (text "esp", VList (map plane_value (firstn (Z.to_nat g) ps)))] ++
      (if (g <? Z.of_nat (length ps))%Z then [(text "mgga", VList (map plane_value (skipn (Z.to_nat g) ps)))] else [])).
Proof.
  intros Hs Hg Sg G0 Hn Hp Hx. unfold parse_cst_esp, esp_file. rewrite open_between.
  change [($ "n_spins", Scalar BInt); ($ "grid", Array BInt)] with (combine [$ "n_spins"; $ "grid"] [Scalar BInt; Array BInt]).
  change (enc_int spins :: enc_ints (g :: gs) :: concat (map plane_records ps)) with
    ([enc_int spins; enc_ints (g :: gs)] ++ concat (map plane_records ps)).
  rewrite (dict_ok _ [Scalar BInt; Array BInt] _ [VInt spins; int_tuple (g :: gs)]);
    [|repeat constructor; try apply short_int; try exact Sg; [now apply scalar_int|now apply ints_roundtrip]|reflexivity].
  cbn [bind app]. rewrite records_between.
  2:{ apply Forall_concat. rewrite Forall_map. eapply Forall_impl; [|exact Hp]. intros p (_ & _ & H).
      unfold plane_records. rewrite Forall_map. eapply Forall_impl; [|exact H]. now intros c (_ & _ & ?). }
  cbn [bind]. destruct (esp_planes ps [] [] None Hp Hx) as (esp & curr & E1 & E2); [left; split; reflexivity|].
  rewrite E1. cbn [bind combine]. unfold dgetE. cbn [dget bind].
  assert (E3 : map VList (esp ++ [curr]) = map plane_value ps) by (rewrite E2; destruct ps; [congruence|reflexivity]).
  rewrite E3. clear E1 E2 E3.
  change (str_eqb ($ "n_spins") ($ "grid")) with false. change (str_eqb ($ "grid") ($ "grid")) with true. cbv iota. cbn [bind].
  change (first_int (int_tuple (g :: gs))) with (Ok g). cbn [bind]. rewrite map_length.
  rewrite Z.gtb_ltb. unfold slice_at. destruct (Z.ltb_spec g 0); [lia|].
  destruct (Z.ltb_spec g (Z.of_nat (length ps))).
  - rewrite firstn_map, skipn_map. reflexivity.
  - rewrite firstn_all2 by lia. reflexivity.
Qed.

(** ** epme_bin *)
Lemma check_ok a m b : short m -> check_header m (between a (m :: b)) = Ok (between (a ++ [m]) b).
Proof.
  intros H. unfold check_header. rewrite next_record by exact H. cbn [bind].
  destruct (str_eqb_spec m m); [reflexivity|congruence].
Qed.
Lemma check_bad a r m t b : short r -> short m -> m <> t -> check_header t (between (a ++ [r]) (m :: b)) = Err ValueError.
Proof.
  intros Hr Hm Hn. unfold check_header. rewrite next_record by exact Hm. cbn [bind].
  destruct (str_eqb_spec m t); [congruence|]. unfold rrewind. rewrite <- app_assoc. cbn [app].
  change (- (2))%Z with (- Z.of_nat (length [r; m]))%Z. rewrite rewind_records; [reflexivity| |discriminate]. auto.
Qed.

Lemma strip_species i : ion_ok i -> strip (ion_species i) = ion_name i.
Proof.
  intros (_ & Hl & Hr & Hn & Hb & _). unfold ion_species, strip.
  assert (NB : forall c, In c (ion_name i) -> is_space c = false).
  { intros c Hc. rewrite Forall_forall in Hb. specialize (Hb c Hc). destruct (is_space c) eqn:E; [|reflexivity].
    apply blank_iff in E. contradiction. }
  apply strip_by_core; auto.
  - now apply blanks_iff.
  - now apply blanks_iff.
  - unfold hd_not. destruct (ion_name i); [exact I|]. apply NB. now left.
  - unfold last_not, hd_not. destruct (rev (ion_name i)) as [|c t] eqn:E; [exact I|]. apply NB. apply in_rev. rewrite E. now left.
Qed.
Lemma one_ion_ok i a b : ion_ok i ->
  one_ion (between a (ion_records i ++ b)) = Ok ((ion_key i, float_tuple (ion_pos i)), between (a ++ ion_records i) b).
Proof.
  intros H. pose proof (strip_species i H) as ES. destruct H as (H1 & _ & _ & _ & _ & H2 & H3 & H4). inversion H4 as [|? ? _ H4']; inversion H4' as [|? ? S1 H5]; inversion H5 as [|? ? S2 _]; subst.
  unfold one_ion. rewrite (iter_ok _ _ [VInt (ion_index i); VStr (ion_species i); float_tuple (ion_pos i)]).
  - cbn [bind]. rewrite ES. reflexivity.
  - unfold ion_records. constructor; [now apply dec_int|]. constructor; [now apply dec_str|]. constructor; [now apply dec_floats|constructor].
Qed.
Lemma one_kpoint_ok k a b : kpt_ok k ->
  one_kpoint (between a (kpt_records k ++ b)) = Ok ((kpt_key k, kpt_value k), between (a ++ kpt_records k) b).
Proof.
  intros (H1 & H2 & H3 & H4 & H5 & H6 & H7). unfold one_kpoint. 
  change kpoint_dtypes with (combine (map fst kpoint_dtypes) (map snd kpoint_dtypes)).
  rewrite (dict_ok _ _ _ [VInt (kp_spin k); VInt (kp_index k); VInt (kp_bands k); VInt (kp_min k); float_tuple (kp_eig k); float_tuple (kp_vel k)]).
  - reflexivity.
  - unfold kpt_records in *. do 4 apply Forall_inv_tail in H7. pose proof (Forall_inv H7) as S1. apply Forall_inv_tail, Forall_inv in H7.
    repeat constructor; try apply short_int; auto; try (now apply scalar_int); now apply floats_roundtrip.
  - reflexivity.
Qed.
Lemma one_phonon_ok p a b : phn_ok p ->
  one_phonon (between a (phn_records p ++ b)) = Ok (phn_value p, between (a ++ phn_records p) b).
Proof.
  intros (H1 & H2 & H3 & H4 & H5 & H6 & H7 & H8). unfold one_phonon.
  change phonon_dtypes with (combine (map fst phonon_dtypes) (map snd phonon_dtypes)).
  rewrite (dict_ok _ _ _ [VInt (ph_q p); VInt (ph_b p); VInt (ph_b2 p); int_tuple (ph_kpts p); float_tuple (ph_freqs p); complex_tuple (ph_modes p); complex_tuple (ph_elems p)]).
  - reflexivity.
  - unfold phn_records in *. do 3 apply Forall_inv_tail in H8.
    pose proof (Forall_inv H8) as S1. apply Forall_inv_tail in H8. pose proof (Forall_inv H8) as S2. apply Forall_inv_tail in H8.
    pose proof (Forall_inv H8) as S3. apply Forall_inv_tail, Forall_inv in H8.
    repeat (constructor; [first [now apply dec_int|now apply dec_ints|now apply dec_floats|now apply dec_complexes]|]). constructor.
  - reflexivity.
Qed.

Lemma cycle_records {A B} (one : bfile -> result (B * bfile)) (recs : A -> list bytes) (val : A -> B) (ok : A -> Prop) xs a b n :
  (forall x a b, ok x -> one (between a (recs x ++ b)) = Ok (val x, between (a ++ recs x) b)) ->
  Forall ok xs -> n = length xs ->
  cycle one n (between a (concat (map recs xs) ++ b)) = Ok (map val xs, between (a ++ concat (map recs xs)) b).
Proof.
  intros H Hx ->. rewrite <- (map_length recs xs). apply cycle_ok.
  induction Hx as [|x xs Hx _ IH]; cbn [map]; constructor; auto.
Qed.

Definition head_acc (e : epme) : acc :=
  [($"version", VInt (ep_version e)); ($"n_spins", VInt (ep_spins e)); ($"fermi_energy", VFloat (FBits (ep_fermi e)))].
Lemma header_ok e b : epme_ok e -> parse_header (between [] (header_records e ++ b)) [] = Ok (head_acc e, between (header_records e) b).
Proof.
  intros (T1 & T2 & T3 & T4 & T5 & T6 & T7 & _). unfold parse_header.
  change header_dtypes with (combine (map fst header_dtypes) (map snd header_dtypes)).
  rewrite (dict_ok _ _ _ [VStr (ep_type e); VInt (ep_version e); VStr (ep_header e); VInt (ep_spins e); VFloat (FBits (ep_fermi e))]).
  - reflexivity.
  - repeat (constructor; [first [now apply dec_str|now apply dec_int|now apply dec_float]|]). constructor.
  - reflexivity.
Qed.
Definition atom_acc (e : epme) : acc :=
  head_acc e ++
  [($"n_ions", VInt (Z.of_nat (length (ep_ions e)))); ($"real_lattice", float_tuple (ep_lattice e));
   ($"ions", VDict false (map (fun i => (ion_key i, float_tuple (ion_pos i))) (ep_ions e)))].
Lemma atoms_ok e a b : epme_ok e -> NoDup (map ion_key (ep_ions e)) ->
  parse_atoms (between a (text "ATOM" :: atom_records e ++ b)) (head_acc e) =
  Ok (atom_acc e, between (a ++ text "ATOM" :: atom_records e) b).
Proof.
  intros (_ & _ & _ & _ & _ & _ & _ & T8 & T9 & T10 & T11 & _) Hd. unfold parse_atoms, atom_records.
  change ($"ATOM") with (text "ATOM").
  rewrite check_ok by reflexivity. cbn [bind app]. rewrite (get_ok _ _ _ _ _ (dec_int _ T8)). cbn [bind].
  rewrite (get_ok _ _ _ _ _ (dec_floats _ T9 T10)). cbn [bind as_int]. rewrite Nat2Z.id.
  rewrite (cycle_records one_ion ion_records (fun i => (ion_key i, float_tuple (ion_pos i))) ion_ok);
    [|intros; now apply one_ion_ok|exact T11|reflexivity]. cbn [bind].
  rewrite (dict_of_nodup _ key_eqb_spec) by (now rewrite map_map).
  rewrite <- !app_assoc. reflexivity.
Qed.
Definition kpt_acc (e : epme) : acc :=
  atom_acc e ++ [($"n_kpoint_pairs", VInt (ep_n_kpts e / 2)); ($"n_bands", VInt (ep_bands e));
   ($"kpoints", VDict false (map (fun k => (kpt_key k, kpt_value k)) (ep_kpts e)))].
Lemma kpts_ok e a b : epme_ok e -> kpts_counted e -> NoDup (map kpt_key (ep_kpts e)) ->
  parse_kpoint (between a (text "KPOINT" :: kpoint_records e ++ b)) (atom_acc e) =
  Ok (kpt_acc e, between (a ++ text "KPOINT" :: kpoint_records e) b).
Proof.
  intros (_ & _ & _ & _ & _ & _ & _ & _ & _ & _ & _ & T1 & T2 & T3 & _) Hc Hd. unfold parse_kpoint, kpoint_records.
  change ($"KPOINT") with (text "KPOINT").
  rewrite check_ok by reflexivity. cbn [bind app]. rewrite (get_ok _ _ _ _ _ (dec_int _ T1)). cbn [bind as_int].
  rewrite (get_ok _ _ _ _ _ (dec_int _ T2)). cbn [bind].
  change (the (atom_acc e) ($"n_spins")) with (Ok (VInt (ep_spins e))). cbn [bind as_int].
  rewrite (cycle_records one_kpoint kpt_records (fun k => (kpt_key k, kpt_value k)) kpt_ok);
    [|intros; now apply one_kpoint_ok|exact T3|unfold kpts_counted in Hc; lia]. cbn [bind].
  rewrite (dict_of_nodup _ key_eqb_spec) by (now rewrite map_map).
  rewrite <- !app_assoc. reflexivity.
Qed.
Lemma isqrt_agree e : bands_agree e -> isqrt (ep_bands2 e) = Ok (ep_bands e).
Proof.
  intros (H0 & H1 & H2). unfold isqrt. destruct (Z.ltb_spec (ep_bands2 e) 0); [nia|]. f_equal. apply Z.sqrt_unique. lia.
Qed.
Lemma isqrt_differ e : ~ bands_agree e -> isqrt (ep_bands2 e) <> Ok (ep_bands e).
Proof.
  intros H E. apply H. unfold isqrt in E. destruct (Z.ltb_spec (ep_bands2 e) 0); [discriminate|]. injection E as E.
  unfold bands_agree. rewrite <- E. pose proof (Z.sqrt_spec (ep_bands2 e)) as Q. pose proof (Z.sqrt_nonneg (ep_bands2 e)). cbv zeta in Q. unfold Z.succ in Q. split; [assumption|]. apply Q. assumption.
Qed.
Lemma phonons_ok e a b : epme_ok e -> pairs_agree e -> bands_agree e -> phonons_counted e ->
  parse_phonons (between a (text "EPCOUPLING" :: phonon_records e ++ b)) (kpt_acc e) =
  Ok (epme_value e, between (a ++ text "EPCOUPLING" :: phonon_records e) b).
Proof.
  intros (_ & _ & _ & _ & _ & _ & _ & _ & _ & _ & _ & _ & _ & _ & T1 & T2 & T3) Hp Hb Hc. unfold parse_phonons, phonon_records.
  change ($"EPCOUPLING") with (text "EPCOUPLING").
  rewrite check_ok by reflexivity. cbn [bind app]. rewrite (get_ok _ _ _ _ _ (dec_int _ T1)). cbn [bind as_int].
  rewrite (get_ok _ _ _ _ _ (dec_int _ T2)). cbn [bind as_int]. rewrite (isqrt_agree e Hb). cbn [bind].
  change (setdefault (setdefault (kpt_acc e) ($ "n_kpoint_pairs") (VInt (ep_n_pairs e))) ($ "n_bands") (VInt (ep_bands e))) with (kpt_acc e).
  change (the (kpt_acc e) ($ "n_kpoint_pairs")) with (Ok (VInt (ep_n_kpts e / 2))).
  change (the (kpt_acc e) ($ "n_bands")) with (Ok (VInt (ep_bands e))). cbn [bind as_int].
  unfold pairs_agree in Hp. rewrite <- Hp, !Z.eqb_refl. cbn [negb].
  rewrite (cycle_records one_phonon phn_records phn_value phn_ok);
    [|intros; now apply one_phonon_ok|exact T3|unfold phonons_counted in Hc; lia]. cbn [bind].
  rewrite <- !app_assoc. unfold epme_value. rewrite <- Hp. cbn [app]. rewrite Hp. reflexivity.
Qed.
Lemma phonons_bad e a b : epme_ok e -> ~ (pairs_agree e /\ bands_agree e) ->
  parse_phonons (between a (text "EPCOUPLING" :: phonon_records e ++ b)) (kpt_acc e) = Err ValueError.
Proof.
  intros (_ & _ & _ & _ & _ & _ & _ & _ & _ & _ & _ & _ & _ & _ & T1 & T2 & T3) Hp. unfold parse_phonons, phonon_records.
  change ($"EPCOUPLING") with (text "EPCOUPLING").
  rewrite check_ok by reflexivity. cbn [bind app]. rewrite (get_ok _ _ _ _ _ (dec_int _ T1)). cbn [bind as_int].
  rewrite (get_ok _ _ _ _ _ (dec_int _ T2)). cbn [bind as_int].
  destruct (isqrt (ep_bands2 e)) as [nb|ex] eqn:E.
  2:{ unfold isqrt in E. destruct (ep_bands2 e <? 0)%Z; [|discriminate]. now injection E as <-. }
  cbn [bind].
  change (setdefault (setdefault (kpt_acc e) ($ "n_kpoint_pairs") (VInt (ep_n_pairs e))) ($ "n_bands") (VInt nb)) with (kpt_acc e).
  change (the (kpt_acc e) ($ "n_kpoint_pairs")) with (Ok (VInt (ep_n_kpts e / 2))).
  change (the (kpt_acc e) ($ "n_bands")) with (Ok (VInt (ep_bands e))). cbn [bind as_int].
  destruct (Z.eqb_spec (ep_n_pairs e) (ep_n_kpts e / 2)) as [Ep|Np]; [|reflexivity]. cbn [negb].
  destruct (Z.eqb_spec nb (ep_bands e)) as [Eb|Nb]; [|reflexivity].
  exfalso. apply (isqrt_differ e); [|now rewrite E, Eb]. intros HB. apply Hp. now split.
Qed.

Lemma epme_roundtrip e more :
  epme_ok e -> NoDup (map ion_key (ep_ions e)) -> NoDup (map kpt_key (ep_kpts e)) ->
  kpts_counted e -> pairs_agree e -> bands_agree e -> phonons_counted e ->
  parse_epme_bin (epme_file (text "ATOM") (text "KPOINT") (text "EPCOUPLING") e more) = Ok (epme_value e).
Proof.
  intros H D1 D2 C1 C2 C3 C4. unfold parse_epme_bin, epme_file. rewrite open_between.
  rewrite header_ok by exact H. cbn [bind]. rewrite atoms_ok by auto. cbn [bind]. rewrite kpts_ok by auto. cbn [bind].
  now rewrite phonons_ok by auto.
Qed.
(** The record before each marker. *)
Lemma last_split {A} (l : list A) x : exists l' y, x :: l = l' ++ [y].
Proof. destruct (exists_last (l := x :: l)) as (l' & y & E); [discriminate|]. eauto. Qed.
Lemma between_last (P : bytes -> Prop) x l : Forall P (x :: l) -> exists l' y, x :: l = l' ++ [y] /\ P y.
Proof.
  intros H. destruct (last_split l x) as (l' & y & E). exists l', y. split; [exact E|]. rewrite E in H.
  apply Forall_app in H as [_ H]. now inversion H.
Qed.
Lemma bad_atom e m1 m2 m3 more : epme_ok e -> short m1 -> m1 <> text "ATOM" ->
  parse_epme_bin (epme_file m1 m2 m3 e more) = Err ValueError.
Proof.
  intros H S1 N1. unfold parse_epme_bin, epme_file. rewrite open_between, header_ok by exact H. cbn [bind].
  unfold parse_atoms. change (header_records e) with (([ep_type e; enc_int (ep_version e); ep_header e; enc_int (ep_spins e)]) ++ [ep_fermi e]).
  rewrite check_bad; [reflexivity| |exact S1|exact N1]. destruct H as (_ & _ & _ & _ & _ & _ & T7 & _). now apply dec_float.
Qed.
Lemma ions_short e : epme_ok e -> Forall short (atom_records e).
Proof.
  intros (_ & _ & _ & _ & _ & _ & _ & T8 & T9 & T10 & T11 & _). unfold atom_records. constructor; [apply short_int|].
  constructor; [exact T10|]. apply Forall_concat. rewrite Forall_map. eapply Forall_impl; [|exact T11]. now intros i (_ & _ & _ & _ & _ & _ & _ & ?).
Qed.
Lemma kpts_short e : epme_ok e -> Forall short (kpoint_records e).
Proof.
  intros (_ & _ & _ & _ & _ & _ & _ & _ & _ & _ & _ & T1 & T2 & T3 & _). unfold kpoint_records. constructor; [apply short_int|].
  constructor; [apply short_int|]. apply Forall_concat. rewrite Forall_map. eapply Forall_impl; [|exact T3]. now intros i (_ & _ & _ & _ & _ & _ & ?).
Qed.
Lemma bad_kpoint e m2 m3 more : epme_ok e -> NoDup (map ion_key (ep_ions e)) -> short m2 -> m2 <> text "KPOINT" ->
  parse_epme_bin (epme_file (text "ATOM") m2 m3 e more) = Err ValueError.
Proof.
  intros H D S N. unfold parse_epme_bin, epme_file. rewrite open_between, header_ok by exact H. cbn [bind].
  rewrite atoms_ok by auto. cbn [bind]. unfold parse_kpoint.
  destruct (between_last short (text "ATOM") (atom_records e)) as (l' & y & E & Hy); [constructor; [reflexivity|now apply ions_short]|].
  rewrite E, app_assoc. now rewrite check_bad.
Qed.
Lemma bad_phonon e m3 more : epme_ok e -> NoDup (map ion_key (ep_ions e)) -> NoDup (map kpt_key (ep_kpts e)) -> kpts_counted e ->
  short m3 -> m3 <> text "EPCOUPLING" ->
  parse_epme_bin (epme_file (text "ATOM") (text "KPOINT") m3 e more) = Err ValueError.
Proof.
  intros H D D2 C S N. unfold parse_epme_bin, epme_file. rewrite open_between, header_ok by exact H. cbn [bind].
  rewrite atoms_ok by auto. cbn [bind]. rewrite kpts_ok by auto. cbn [bind]. unfold parse_phonons.
  destruct (between_last short (text "KPOINT") (kpoint_records e)) as (l' & y & E & Hy); [constructor; [reflexivity|now apply kpts_short]|].
  rewrite E, app_assoc. now rewrite check_bad.
Qed.
Lemma bad_counts e more : epme_ok e -> NoDup (map ion_key (ep_ions e)) -> NoDup (map kpt_key (ep_kpts e)) -> kpts_counted e ->
  ~ (pairs_agree e /\ bands_agree e) ->
  parse_epme_bin (epme_file (text "ATOM") (text "KPOINT") (text "EPCOUPLING") e more) = Err ValueError.
Proof.
  intros H D D2 C N. unfold parse_epme_bin, epme_file. rewrite open_between, header_ok by exact H. cbn [bind].
  rewrite atoms_ok by auto. cbn [bind]. rewrite kpts_ok by auto. cbn [bind]. now rewrite phonons_bad.
Qed.
