(** Properties C18-C22: binary files.  [between a b] (FortranFacts) is the reader of
    the file holding the records [a ++ b], positioned after [a]. *)
From Coq Require Import Lia ZArith.
From Verif Require Import PyBase PyVal Bytes SpecBytes Fortran SpecFortran FortranFacts FortranTyped BinParsers SpecLine SpecBin BinFacts.
Local Open Scope list_scope.
Local Open Scope nat_scope.

(** ** C18 *)
Theorem C18_records_roundtrip : forall rs, Forall short rs -> records (open_bytes (enc_file rs)) = Ok rs.
Proof. exact records_file. Qed.
Print Assumptions C18_records_roundtrip.
Example C18_ex : records (open_bytes (enc_file [$"abc"; []; $"de"])) = Ok [$"abc"; []; $"de"].
Proof. apply C18_records_roundtrip. repeat constructor. Qed.

(** ** C19 *)
Theorem C19_cursor : forall rs os outs, Forall short rs ->
  cursor_run rs (At 0) os = Some outs -> rrun (open_bytes (enc_file rs)) os = Ok outs.
Proof. intros. now apply history. Qed.
Print Assumptions C19_cursor.
Theorem C19_rewind_too_far : forall before after n, Forall short before ->
  (Z.of_nat (length before) < n)%Z -> rrewind n (between before after) = Err OSError.
Proof. intros. now apply rewind_before. Qed.
Print Assumptions C19_rewind_too_far.
Example C19_ex :
  rrun (open_bytes (enc_file [$"abc"; []; $"de"]))
       [Skip 2; Next; Rewind 3; Next; Next; Skip (-1); Next; Next; Next; Rewind 1; Next; Skip 5; Next]
  = Ok [Moved; Data ($"de"); Moved; Data ($"abc"); Data []; Moved; Data []; Data ($"de"); Stop; Moved; Data ($"de"); Moved; Stop].
Proof. apply C19_cursor; [repeat constructor|reflexivity]. Qed.
(** Moving back after having skipped past the end does not undo the skip. *)
Theorem C19_rewind_after_overrun_refuted :
  exists rs, Forall short rs /\
    rrun (open_bytes (enc_file rs)) [Skip 2; Rewind 2; Next] <> Ok [Moved; Moved; Data ($"a")] /\
    rrun (open_bytes (enc_file rs)) [Next] = Ok [Data ($"a")].
Proof. exists [$"a"]. split; [repeat constructor|]. split; [|reflexivity]. vm_compute. discriminate. Qed.

(** ** C20 *)
Theorem C20_dict : forall ks ts rs vs before after,
  length ks = length ts -> all_decode ts rs vs ->
  get_dtype_dict (combine ks ts) (between before (rs ++ after)) = Ok (combine ks vs, between (before ++ rs) after).
Proof. intros. now apply dict_ok. Qed.
Print Assumptions C20_dict.
Theorem C20_dict_runs_out : forall ks ts ks' ts' rs vs before,
  length ks = length ts -> all_decode ts rs vs ->
  get_dtype_dict (combine ks ts ++ combine ks' ts') (between before rs) = Ok (combine ks vs, between (before ++ rs) []).
Proof. intros. now apply dict_short. Qed.
Print Assumptions C20_dict_runs_out.
Theorem C20_dict_bad_record : forall ks ts k t more rs vs r e before after,
  length ks = length ts -> all_decode ts rs vs -> short r -> parse_bytes r t = Err e ->
  get_dtype_dict (combine ks ts ++ (k, t) :: more) (between before (rs ++ r :: after)) = Err e.
Proof. intros. now apply dict_bad with (vs := vs). Qed.
Print Assumptions C20_dict_bad_record.
Theorem C20_tuple : forall ts rs vs before after, all_decode ts rs vs ->
  get_dtype_iter ts (between before (rs ++ after)) = Ok (vs, between (before ++ rs) after).
Proof. intros. now apply iter_ok. Qed.
Print Assumptions C20_tuple.
Theorem C20_tuple_runs_out : forall ts t more rs vs before, all_decode ts rs vs ->
  get_dtype_iter (ts ++ t :: more) (between before rs) = Err RuntimeError.
Proof. intros. now apply iter_short with (vs := vs). Qed.
Print Assumptions C20_tuple_runs_out.
Theorem C20_cycle : forall ks ts groups vss before after,
  length ks = length ts -> Forall2 (all_decode ts) groups vss ->
  cycle_dict (combine ks ts) (length groups) (between before (concat groups ++ after)) =
    Ok (map (combine ks) vss, between (before ++ concat groups) after) /\
  cycle_iter ts (length groups) (between before (concat groups ++ after)) =
    Ok (vss, between (before ++ concat groups) after).
Proof. intros. split; [now apply cycle_dict_ok|now apply cycle_iter_ok]. Qed.
Print Assumptions C20_cycle.
(** A dict cycle past the end of the file yields empty dictionaries for ever. *)
Theorem C20_cycle_past_end : forall dtypes n before, dtypes <> [] ->
  cycle_dict dtypes n (between before []) = Ok (repeat [] n, between before []).
Proof. intros. now apply cycle_dict_empty. Qed.
Print Assumptions C20_cycle_past_end.
Example C20_ex : all_decode [Scalar BInt; Array BInt; Scalar BStr]
   [enc_int (-7); enc_ints [1; 2]%Z; $"Si"] [VInt (-7); int_tuple [1; 2]%Z; VStr ($"Si")].
Proof. repeat constructor. Qed.
Example C20_ex_bad : all_decode [Scalar BInt] [enc_int 3] [VInt 3] /\ parse_bytes ($"abc") (Scalar BInt) = Err StructError.
Proof. split; [repeat constructor|reflexivity]. Qed.

(** ** C21 *)
Theorem C21_esp_roundtrip : forall spins g gs planes,
  int32 spins -> Forall int32 (g :: gs) -> short (enc_ints (g :: gs)) -> (0 <= g)%Z ->
  planes <> [] -> Forall plane_ok planes -> x_changes planes ->
  parse_cst_esp (esp_file spins (g :: gs) planes) =
  Ok ([(text "n_spins", VInt spins); (text "grid", int_tuple (g :: gs));
       (text "esp", VList (map plane_value (firstn (Z.to_nat g) planes)))] ++
      (if (g <? Z.of_nat (length planes))%Z
       then [(text "mgga", VList (map plane_value (skipn (Z.to_nat g) planes)))] else [])).
Proof. exact esp_roundtrip. Qed.
Print Assumptions C21_esp_roundtrip.
Definition d0 : bytes := $"01234567".
Definition d1 : bytes := $"abcdefgh".
Definition planes_ex : list plane :=
  [(1, [(1, [(d0, d1); (d1, d1)]); (2, [(d0, d0)])]); (2, [(1, [(d1, d0)])]); (1, [(1, [])])]%Z.
Example C21_ex : int32 1 /\ Forall int32 [2; 2; 2]%Z /\ short (enc_ints [2; 2; 2]%Z) /\ planes_ex <> [] /\
  Forall plane_ok planes_ex /\ x_changes planes_ex.
Proof.
  unfold planes_ex. split; [split; reflexivity || discriminate|]. split; [repeat constructor; discriminate|].
  split; [reflexivity|]. split; [discriminate|]. split; [|cbn; repeat split; discriminate].
  repeat constructor; try discriminate.
Qed.
(** The grouping relies on the x index changing: a meta-GGA potential on a grid one
    point wide is merged into the electrostatic potential. *)
Theorem C21_same_x_merged_refuted :
  exists g gs (p q : plane), g = 1%Z /\ plane_ok p /\ plane_ok q /\
    parse_cst_esp (esp_file 1 (g :: gs) [p; q]) =
    Ok [(text "n_spins", VInt 1); (text "grid", int_tuple (g :: gs));
        (text "esp", VList [VList [complex_tuple [(d0, d1)]; complex_tuple [(d1, d1)]]])].
Proof.
  exists 1%Z, [1; 1]%Z, (1, [(1, [(d0, d1)])])%Z, (1, [(1, [(d1, d1)])])%Z. split; [reflexivity|].
  split; [repeat constructor; discriminate|]. split; [repeat constructor; discriminate|]. vm_compute. reflexivity.
Qed.

(** ** C22 *)
Theorem C22_epme_roundtrip : forall e more,
  epme_ok e -> NoDup (map ion_key (ep_ions e)) -> NoDup (map kpt_key (ep_kpts e)) ->
  kpts_counted e -> pairs_agree e -> bands_agree e -> phonons_counted e ->
  parse_epme_bin (epme_file (text "ATOM") (text "KPOINT") (text "EPCOUPLING") e more) = Ok (epme_value e).
Proof. exact epme_roundtrip. Qed.
Print Assumptions C22_epme_roundtrip.
Theorem C22_wrong_marker : forall e more m1 m2 m3,
  epme_ok e -> NoDup (map ion_key (ep_ions e)) -> NoDup (map kpt_key (ep_kpts e)) -> kpts_counted e ->
  short m1 -> short m2 -> short m3 ->
  ~ (m1 = text "ATOM" /\ m2 = text "KPOINT" /\ m3 = text "EPCOUPLING") ->
  parse_epme_bin (epme_file m1 m2 m3 e more) = Err ValueError.
Proof.
  intros e more m1 m2 m3 H D1 D2 C S1 S2 S3 N.
  destruct (list_eq_dec ascii_dec m1 (text "ATOM")) as [->|]; [|now apply bad_atom].
  destruct (list_eq_dec ascii_dec m2 (text "KPOINT")) as [->|]; [|now apply bad_kpoint].
  destruct (list_eq_dec ascii_dec m3 (text "EPCOUPLING")) as [->|]; [|now apply bad_phonon].
  exfalso. now apply N.
Qed.
Print Assumptions C22_wrong_marker.
Theorem C22_wrong_counts : forall e more,
  epme_ok e -> NoDup (map ion_key (ep_ions e)) -> NoDup (map kpt_key (ep_kpts e)) -> kpts_counted e ->
  ~ (pairs_agree e /\ bands_agree e) ->
  parse_epme_bin (epme_file (text "ATOM") (text "KPOINT") (text "EPCOUPLING") e more) = Err ValueError.
Proof. exact bad_counts. Qed.
Print Assumptions C22_wrong_counts.
Definition kpt_ex (s k : Z) : kpt := {| kp_spin := s; kp_index := k; kp_bands := 2; kp_min := 1; kp_eig := [d0; d1]; kp_vel := [d0] |}.
Definition epme_ex : epme :=
  {| ep_type := $"BEGIN"; ep_version := 1; ep_header := $"HEADER"; ep_spins := 1; ep_fermi := d0; ep_lattice := [d0; d1];
     ep_ions := [{| ion_index := 1; ion_left := []; ion_name := $"Si"; ion_right := $"   "; ion_pos := [d0; d1; d0] |};
                 {| ion_index := 2; ion_left := []; ion_name := $"Si"; ion_right := $"   "; ion_pos := [d1; d1; d0] |}];
     ep_n_kpts := 2; ep_bands := 2; ep_kpts := [kpt_ex 1 1; kpt_ex 1 2]; ep_n_pairs := 1; ep_bands2 := 4;
     ep_phonons := [{| ph_q := 1; ph_b := 2; ph_b2 := 2; ph_kpts := [1; 2]; ph_freqs := [d0]; ph_modes := [(d0, d1)]; ph_elems := [] |}] |}%Z.
Lemma nodup2 {A} (x y : A) : x <> y -> NoDup [x; y].
Proof. intros H. constructor; [cbn; intuition|]. constructor; [intros []|constructor]. Qed.
Lemma nonblank_text s : forallb (fun c => negb (is_space c)) s = true -> Forall (fun c => ~ blank c) s.
Proof.
  intros H. apply Forall_forall. intros c Hc. rewrite forallb_forall in H. specialize (H c Hc).
  intros B. apply NumProps.blank_iff in B. rewrite B in H. discriminate.
Qed.
Example C22_ex : epme_ok epme_ex /\ NoDup (map ion_key (ep_ions epme_ex)) /\ NoDup (map kpt_key (ep_kpts epme_ex)) /\
  kpts_counted epme_ex /\ pairs_agree epme_ex /\ bands_agree epme_ex /\ phonons_counted epme_ex.
Proof.
  split.
  - unfold epme_ok, ion_ok, kpt_ok, phn_ok, epme_ex.
    repeat (match goal with
            | |- _ /\ _ => split
            | |- Forall (fun c => ~ blank c) _ => apply nonblank_text; reflexivity
            | |- blanks _ => apply NumProps.blanks_iff; reflexivity
            | |- Forall _ _ => constructor
            | |- complex_ok _ => split; reflexivity
            | |- ascii_text _ => unfold ascii_text
            | |- int32 _ => split; [discriminate|reflexivity]
            | |- _ <> _ => discriminate
            | |- _ => reflexivity
            end).
  - split; [apply nodup2; discriminate|]. split; [apply nodup2; discriminate|]. repeat split; discriminate.
Qed.
