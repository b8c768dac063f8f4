(** Property theorem C67: .phonon files. *)
From Verif Require Import PyBase PyFacts PyVal Regex NumSpec SpecLine SpecTable SpecStr SpecBands SpecDict DictUtil DictFacts SpecMd SpecCastep SpecFiles SpecFiles2 SpecFiles3 SpecFiles5 SpecFiles6 CastepRes StrUtil StrUtilFacts
  TypeConv Stream Header TextFiles MdFacts NumProps TextParsers TextParsersFacts HeaderFacts BandsFacts FileFacts FileParts FileParts4 FileParts5 FileParts6 ExampleTools T_TextFiles T_TextFiles2 T_TextFiles5.
Local Open Scope list_scope.
Local Open Scope nat_scope.

(** C67.  .phonon files whose header says the numbers of branches and of ions. *)
Theorem C67_phonon ls its b i qs : phonon_file its b i qs ls -> (atoms its = [] \/ sites its = []) -> ~ absent (flat_map item_entry its) (KStr []) ->
  said_last (flat_map item_entry its) "branches" (VInt b) -> said_last (flat_map item_entry its) "ions" (VInt i) ->
  unnamed ["qpts"]%string (flat_map item_entry its) ->
  exists es d0 vs d, parse_phonon_file ls = Ok (VDict true d) /\ header_says its es /\ merged (without (KStr []) es) d0 /\
    Forall2 qpoint_said qs vs /\ gathered d0 (map (named "qpts") vs) d.
Proof. exact (phonon_exact ls its b i qs). Qed.
Print Assumptions C67_phonon.

Definition ex_ph_header : list str := ex_header ["  Number of branches            2"]%string.
Definition ex_ph_items : list hitem := HEntry [] (HNums []) :: HEntry ($"branches") (HCount 2) :: ex_items [HEntry [] (HNums [])] ++ [HEntry [] (HNums [])].
Lemma ex_ph_block : header_block "" ex_ph_items ex_ph_header.
Proof.
  apply (hb _ _ (ln " BEGIN header") (removelast (skipn 1 ex_ph_header)) (ln " END header")).
  - split; [apply mentions_of; vmr|]. split; [|apply mentions_of; vmr].
    apply (forall_of _ (fun x => negb (contains ($"END header") x))); [|vmr]. intros x Hx. apply not_mentions_of. now apply negb_true_iff.
  - apply (hr_line _ _ (Some ([], HNums []))); [apply ex_head_any; vmr|].
    apply (hr_line _ _ (Some ($"branches", HCount 2%Z))).
    { apply (ex_count _ _ [$"branches"] (rd "2")); try vmr. apply T_TextParsers.ex_trunc; vmr. }
    apply (ex_header_tail "" [HEntry [] (HNums [])]); [|now right].
    intros l [<-|[<-|[]]]; apply ex_head_any; vmr.
Qed.
Definition ex_qlines1 : list str :=
  lns ["     q-pt=    1    0.000000  0.000000  0.000000      0.25    0.027778  0.5  0.000000";
       "       1      -0.040146              0.0000000                                  ";
       "       2    1130.614141             12.0593100                3.5               ";
       "                        Phonon Eigenvectors";
       "Mode Ion                X                                   Y                                   Z";
       "   1   1 -0.659935909332  0.000000000000     -0.007405987400  0.000000000000";
       "   1   2 -0.751238092619  0.000000000000     -0.008430606320  0.000000000000";
       "   2   1 -0.5  0.125     -0.007405987400  0.000000000000";
       "   2   2  0.5  1.25      -0.25  0.75"]%string.
Definition ex_qlines2 : list str :=
  lns ["     q-pt=    2    0.000000  0.500000  0.000000      0.75"; "       1      -0.040146"; "       2    1130.614141 "; " Phonon Eigenvectors";
       "a remark"; "Mode Ion   X"; "   1   1 1.5 2.5"; "   1   2 3.5 4.5"; "   2   1 5.5 6.5"; "   2   2 7.5 8.5"; "a remark"]%string.
Definition ex_q1 : qpoint :=
  {| q_at := ex_v "0.000000" "0.000000" "0.000000"; q_weight := rd "0.25"; q_dir := ex_v "0.027778" "0.5" "0.000000";
     q_modes := [{| md_value := rd "-0.040146"; md_ir := Some (rd "0.0000000"); md_raman := None |};
                 {| md_value := rd "1130.614141"; md_ir := Some (rd "12.0593100"); md_raman := Some (rd "3.5") |}];
     q_vectors := map (map (fun p => (rd (fst p), rd (snd p))))
       [[("-0.659935909332", "0.000000000000"); ("-0.007405987400", "0.000000000000")]; [("-0.751238092619", "0.000000000000"); ("-0.008430606320", "0.000000000000")];
        [("-0.5", "0.125"); ("-0.007405987400", "0.000000000000")]; [("0.5", "1.25"); ("-0.25", "0.75")]]%string |}.
Definition ex_q2 : qpoint :=
  {| q_at := ex_v "0.000000" "0.500000" "0.000000"; q_weight := rd "0.75"; q_dir := [];
     q_modes := [{| md_value := rd "-0.040146"; md_ir := None; md_raman := None |}; {| md_value := rd "1130.614141"; md_ir := None; md_raman := None |}];
     q_vectors := map (map (fun p => (rd (fst p), rd (snd p)))) [[("1.5", "2.5")]; [("3.5", "4.5")]; [("5.5", "6.5")]; [("7.5", "8.5")]]%string |}.
Lemma cols_of a b l t : cols a b l = t -> in_columns a b l t.
Proof.
  intros <-. unfold cols. destruct (le_lt_dec a (length l)) as [H|H].
  - rewrite <- (firstn_skipn a l) at 1. set (x := firstn a l). assert (Hx : length x = a) by (unfold x; now apply firstn_length_le).
    destruct (le_lt_dec (b - a) (length (skipn a l))) as [H'|H'].
    + rewrite <- (firstn_skipn (b - a) (skipn a l)) at 1. apply ic_whole; [exact Hx|now apply firstn_length_le].
    + rewrite firstn_all2 by lia. now apply ic_short.
  - rewrite skipn_all2 by lia. rewrite firstn_nil. now apply ic_none.
Qed.
Definition fieldb (t : str) (o : option num) : bool :=
  match o with
  | None => forallb is_space t
  | Some n => str_eqb t (take_while is_space t ++ write_num n ++ skipn (length (take_while is_space t ++ write_num n)) t) &&
      forallb is_space (skipn (length (take_while is_space t ++ write_num n)) t) && wfb n && fitsb n
  end.
Lemma field_of t o : fieldb t o = true -> field t o.
Proof.
  destruct o as [n|]; cbn [fieldb]; intros H; [|apply fd_none; now apply blanks_of].
  rewrite !andb_true_iff in H. destruct H as [[[H1 H2] H3] H4]. destruct (str_eqb_spec t (take_while is_space t ++ write_num n ++ skipn (length (take_while is_space t ++ write_num n)) t)) as [E|]; [|discriminate].
  rewrite E. apply fd_some; [|now apply blanks_of|now apply wf_of|now apply fits_of]. apply blanks_of. clear. induction t as [|c t IH]; [reflexivity|]. cbn. destruct (is_space c) eqn:E; [|reflexivity]. cbn. now rewrite E.
Qed.
Lemma mode_of l m : fieldb (cols 8 23 l) (Some (md_value m)) = true -> fieldb (cols 31 46 l) (md_ir m) = true -> fieldb (cols 55 70 l) (md_raman m) = true -> mode_row l m.
Proof. intros H1 H2 H3. apply (mr l m _ _ _ (cols_of _ _ _ _ eq_refl) (field_of _ _ H1) (cols_of _ _ _ _ eq_refl) (field_of _ _ H2) (cols_of _ _ _ _ eq_refl) (field_of _ _ H3)). Qed.
Lemma no_block_of l : contains ($"BEGIN header") l = false -> contains ($"q-pt") l = false -> contains ($"Mode Ion") l = false -> no_block l.
Proof. intros H1 H2 H3. split; [|split]; now apply not_mentions_of. Qed.
Lemma has_text_of w l : contains w l = true -> has_text w l.
Proof. apply has_text_iff. Qed.
Lemma no_text_of w l : contains w l = false -> ~ has_text w l.
Proof. intros H C. apply has_text_iff in C. congruence. Qed.
Lemma vector_of w1 w2 l ps : split l = w1 :: w2 :: map write_num (pair_nums ps) -> forallb (fun n => wfb n && fitsb n) (pair_nums ps) = true -> vector_words l ps.
Proof. intros H1 H2. apply (vw w1 w2); [now apply cut_of|now apply ok_of']. Qed.
Ltac a_title := eapply qt; [apply cut_of; vmr|reflexivity|apply ok_of'; vmr].
Ltac a_last := apply has_text_of; vmr.
Ltac a_qpt := solve
  [apply not_mentions_of; vmr | a_title | reflexivity | split; [apply mentions_of; vmr|split; [repeat (constructor; [apply not_mentions_of; vmr|]); constructor|apply mentions_of; vmr]]
  | apply mentions_of; vmr | a_last | (repeat (constructor; [apply mode_of; vmr|]); constructor) | (repeat (constructor; [apply no_block_of; vmr|]); constructor)
  | (repeat (constructor; [apply no_text_of; vmr|]); constructor) | (repeat (constructor; [eapply vector_of; vmr|]); constructor)].
Example C67_phonon_ex : phonon_file ex_ph_items 2 2 [ex_q1; ex_q2] (ex_ph_header ++ ln "a remark" :: ex_qlines1 ++ ex_qlines2) /\ atoms ex_ph_items = [] /\
  ~ absent (flat_map item_entry ex_ph_items) (KStr []) /\ said_last (flat_map item_entry ex_ph_items) "branches" (VInt 2) /\
  said_last (flat_map item_entry ex_ph_items) "ions" (VInt 2) /\ unnamed ["qpts"]%string (flat_map item_entry ex_ph_items).
Proof.
  split; [|split; [reflexivity|split; [|split; [|split]]]].
  - apply pf; [exact ex_ph_block|]. apply qp_other; [apply no_block_of; vmr|].
    apply (qp_block 2 2 _ (firstn 2 (skipn 1 ex_qlines1)) _ [] _ (firstn 3 (skipn 5 ex_qlines1)) _ _ ex_q1); try a_qpt.
    apply (qp_block 2 2 _ (firstn 2 (skipn 1 ex_qlines2)) _ (firstn 1 (skipn 4 ex_qlines2)) _ (firstn 3 (skipn 6 ex_qlines2)) _ _ ex_q2); try a_qpt.
  - intros C. apply C. now left.
  - exists [named "" (VTuple [])], (skipn 2 (flat_map item_entry ex_ph_items)). split; [reflexivity|]. intros C. vm_compute in C. intuition discriminate.
  - exists (firstn 2 (flat_map item_entry ex_ph_items)), (skipn 3 (flat_map item_entry ex_ph_items)). split; [reflexivity|]. intros C. vm_compute in C. intuition discriminate.
  - intros k [<-|[]] C. vm_compute in C. intuition discriminate.
Qed.

(** A q-point without vectors is lost. *)
Theorem C67_phonon_lost_refuted : exists v, parse_phonon_file ex_ph_header = Ok v /\
  parse_phonon_file (ex_ph_header ++ lns ["  q-pt=    2    0.0  0.5  0.0      0.75"; "       1      -0.040146"; "       2    1130.614141 "; " Phonon Eigenvectors"]%string) = Ok v.
Proof. eexists. split; vm_compute; reflexivity. Qed.
Print Assumptions C67_phonon_lost_refuted.
(** Intensities are not kept with their modes: two q-points, of which only the
    first, or only the second mode has one, read the same. *)
Theorem C67_phonon_intensity_refuted :
  let q m1 m2 := ex_ph_header ++ lns ["  q-pt=    2    0.0  0.5  0.0      0.75"; m1; m2; " Phonon Eigenvectors"; "Mode Ion"; "   1   1 1.5 2.5"; "   1   2 3.5 4.5"; "   2   1 5.5 6.5"; "   2   2 7.5 8.5"]%string in exists v,
  parse_phonon_file (q "       1           1.500000             12.0593100" "       2           1.500000")%string = Ok v /\
  parse_phonon_file (q "       1           1.500000" "       2           1.500000             12.0593100")%string = Ok v.
Proof. eexists. split; vm_compute; reflexivity. Qed.
Print Assumptions C67_phonon_intensity_refuted.
(** Vectors before the first q-point end the reading with an error. *)
Theorem C67_phonon_order_refuted : parse_phonon_file (ex_ph_header ++ lns ["Mode Ion"; "   1   1 1.5 2.5"; "   1   2 3.5 4.5"; "   2   1 5.5 6.5"; "   2   2 7.5 8.5"]%string) = Err UnboundLocalError.
Proof. vm_compute. reflexivity. Qed.
Print Assumptions C67_phonon_order_refuted.
(** Vectors given twice for a q-point make two entries, each with all vectors of both. *)
Theorem C67_phonon_twice_refuted :
  let v a := lns ["Mode Ion"; "   1   1 1.5 " ++ a; "   1   2 3.5 4.5"; "   2   1 5.5 6.5"; "   2   2 7.5 8.5"]%string in exists d e vs,
  parse_phonon_file (ex_ph_header ++ lns ["  q-pt=    2    0.0  0.5  0.0      0.75"; "       1           1.500000"; "       2           2.500000"; " Phonon Eigenvectors"]%string ++ v "2"%string ++ v "3"%string) =
    Ok (VDict true d) /\
  In (named "qpts" (VList [VDict true e; VDict true e])) d /\ In (named "eigenvectors" (VList vs)) e /\
  vs = map (fun p => VTuple [complex_val (rd (fst p), rd (snd p))]) [("1.5", "2"); ("3.5", "4.5"); ("5.5", "6.5"); ("7.5", "8.5"); ("1.5", "3"); ("3.5", "4.5"); ("5.5", "6.5"); ("7.5", "8.5")]%string.
Proof.
  cbv zeta. eexists. eexists. eexists. split; [vm_compute; reflexivity|]. split; [|split].
  - cbn [In]. repeat (try (left; reflexivity); right).
  - cbn [In]. repeat (try (left; reflexivity); right).
  - vm_compute. reflexivity.
Qed.
Print Assumptions C67_phonon_twice_refuted.
