(** C33-C38, C58: .md and .geom files, and the lazy reader. *)
From Verif Require Import PyBase PyFacts PyVal NumSpec SpecLine SpecStr SpecText SpecTable SpecBands SpecDict FileWrapper FileWrapperObs FileWrapperFacts
  Stream StreamFacts TextParsersFacts SpecMd MdGeom MdFacts MdFileFacts MdLazyFacts ExampleTools.
Local Open Scope list_scope.
Local Open Scope nat_scope.

(** ** C33 *)
Theorem C33_frame_exact : forall ls its, md_lines ls its -> exists d ions,
  parse_md_geom_frame ls = Ok (VDict true ((kstr "ions", VDict false ions) :: d)) /\
  NoDup (kstr "ions" :: map fst d) /\ NoDup (map fst ions) /\
  (forall k v, entry d k v <-> exists s, k = KStr s /\ frame_has fval rows_v its s v) /\
  (forall k v, entry ions k v -> exists sp i p, k = KTuple [KStr sp; KInt i] /\ has_atom sp i its /\ v = VDict false p /\
     NoDup (map fst p) /\ forall k' w, entry p k' w <-> exists s, k' = KStr s /\ atom_has vec its sp i s w) /\
  (forall sp i, has_atom sp i its -> ~ absent ions (KTuple [KStr sp; KInt i])).
Proof. exact frame_exact. Qed.
Print Assumptions C33_frame_exact.

Definition fr1 : list str := lns ["      0.0000E+000"; "     -8.5E+000    -8.25E+000     1.0E-002  <-- E";
  "      1.0E+001   0.0   0.0   <-- h"; "      0.0   1.0E+001   0.0   <-- h"; " H      1    1.0E+000   2.0  -3.5E+000  <-- R";
  " H:D    2    1.0E+000   2.0  -3.5E+000  <-- V"]%string.
Definition its1 : list item :=
  [MTime (rd "0.0000E+000"); MRow ($"E") [rd "-8.5E+000"; rd "-8.25E+000"; rd "1.0E-002"];
   MRow ($"h") [rd "1.0E+001"; rd "0.0"; rd "0.0"]; MRow ($"h") [rd "0.0"; rd "1.0E+001"; rd "0.0"];
   MAtom ($"H") 1 ($"R") (rd "1.0E+000") (rd "2.0") (rd "-3.5E+000"); MAtom ($"H:D") 2 ($"V") (rd "1.0E+000") (rd "2.0") (rd "-3.5E+000")].
Definition is_capb (c : ascii) : bool := (65 <=? nat_of_ascii c) && (nat_of_ascii c <=? 90).
Lemma row_ok body : is_capb (hd " "%char (drop_while is_space body)) = false -> forall a c t, body = a ++ c :: t -> blanks a -> ~ capital c.
Proof.
  intros H a c t -> Hb C. apply NumProps.blanks_iff in Hb.
  assert (S : is_space c = false). { destruct (is_space c) eqn:E; [|reflexivity]. exfalso. clear -E C. unfold capital in C.
    unfold is_space in E. rewrite !orb_true_iff, !in_range_iff in E. lia. }
  revert H. induction a as [|x a IH]; cbn [app drop_while] in *.
  - rewrite S. cbn [hd]. unfold is_capb. unfold capital in C. rewrite andb_false_iff, !Nat.leb_gt. unfold nat_of_ascii. lia.
  - cbn in Hb. apply andb_true_iff in Hb as [-> Hb]. now apply IH.
Qed.
Ltac no_tag := intros C; cbn in C; repeat (destruct C as [C|C]; [discriminate|]); exact C.
Ltac wordc := repeat constructor; vm_compute; intuition congruence.
Lemma tag_of body tag g e : forallb (fun c => negb (Ascii.eqb c "<")) body = true -> forallb is_space g = true ->
  negb (isempty tag) = true -> forallb is_word tag = true -> is_word (hd " "%char e) = false ->
  tagged body tag (body ++ $"<--" ++ g ++ tag ++ e).
Proof.
  intros H1 H2 H3 H4 H5. exists g, e. split; [reflexivity|]. split; [|split; [now apply blanks_of|split]].
  - intros C. rewrite forallb_forall in H1. specialize (H1 _ C). discriminate.
  - split; [now apply ne_nil|now apply words_iff].
  - intros c t -> C. apply word_char_iff in C. cbn in H5. congruence.
Qed.
Definition tagsb (tag : str) : bool := negb (existsb (str_eqb tag) (map (fun s => $s) ("ions" :: "time" :: map snd long_names)%string)).
Lemma tag_ok_of tag : tagsb tag = true -> tag_ok tag.
Proof.
  unfold tagsb, tag_ok. intros H C. apply negb_true_iff, not_true_iff_false in H. apply H, existsb_exists. exists tag. split; [exact C|].
  destruct (str_eqb_spec tag tag); congruence.
Qed.
Lemma row_of s n ps e body tag g e' l : l = body ++ $"<--" ++ g ++ tag ++ e' -> l = s ++ write_num n ++ glued ps e ->
  freeb "0123456789" s && not_lastb "+-." s && okb n && tailb ps e = true ->
  forallb (fun c => negb (Ascii.eqb c "<")) body && forallb is_space g && negb (isempty tag) && forallb is_word tag &&
    negb (is_word (hd " "%char e')) && tagsb tag && negb (is_capb (hd " "%char (drop_while is_space body))) = true ->
  forallb fitsb (n :: map snd ps) = true -> md_line l (Some (MRow tag (n :: map snd ps))).
Proof.
  intros E1 E2 H1 H2 H3. repeat (apply andb_true_iff in H2 as [H2 ?]). apply ml_row with body.
  - rewrite E1. apply tag_of; auto. now apply negb_true_iff.
  - now apply tag_ok_of.
  - eapply number_line_of; eassumption.
  - apply (forall_of _ fitsb); [exact fits_of|exact H3].
  - apply row_ok. now apply negb_true_iff.
Qed.
Lemma atom_of a sp g ds t b tag x y z gt e l : l = (a ++ sp ++ g ++ write_digits ds ++ t ++ b) ++ $"<--" ++ gt ++ tag ++ e -> species sp ->
  forallb (fun c => negb (Ascii.eqb c "<")) (a ++ sp ++ g ++ write_digits ds ++ t ++ b) && forallb is_space gt && negb (isempty tag) &&
    forallb is_word tag && negb (is_word (hd " "%char e)) && tagsb tag && forallb is_space a && forallb is_space g && negb (isempty g) &&
    negb (isempty ds) && columnsb [x; y; z] t && forallb is_space b && negb (isempty b) = true ->
  forallb fitsb [x; y; z] = true -> md_line l (Some (MAtom sp (decimal ds) tag x y z)).
Proof.
  intros -> Hs H H3. repeat (apply andb_true_iff in H as [H ?]). eapply ml_atom with (a := a) (g := g) (ds := ds) (t := t) (b := b); auto.
  - apply tag_of; auto. now apply negb_true_iff.
  - now apply tag_ok_of.
  - now apply blanks_of.
  - now apply blanks_of.
  - now apply ne_nil.
  - now apply ne_nil.
  - now apply columns_of.
  - apply (forall_of _ fitsb); [exact fits_of|exact H3].
  - now apply blanks_of.
  - now apply ne_nil.
Qed.
Lemma mls_some l it ls its : md_line l (Some it) -> md_lines ls its -> md_lines (l :: ls) (it :: its).
Proof. exact (mls_cons l (Some it) ls its). Qed.
Example C33_ex : md_lines fr1 its1.
Proof.
  apply mls_some.
  { eapply ml_time; [apply not_mentions_of; vmr|apply (number_line_of ($"      ") (rd "0.0000E+000") [] [newline]); vmr|apply fits_of; vmr]. }
  apply mls_some.
  { apply (row_of ($"     ") (rd "-8.5E+000") [($"    ", rd "-8.25E+000"); ($"     ", rd "1.0E-002")] ($"  <-- E" ++ [newline])
      ($"     -8.5E+000    -8.25E+000     1.0E-002  ") ($"E") ($" ") [newline]); vmr. }
  apply mls_some.
  { apply (row_of ($"      ") (rd "1.0E+001") [($"   ", rd "0.0"); ($"   ", rd "0.0")] ($"   <-- h" ++ [newline])
      ($"      1.0E+001   0.0   0.0   ") ($"h") ($" ") [newline]); vmr. }
  apply mls_some.
  { apply (row_of ($"      ") (rd "0.0") [($"   ", rd "1.0E+001"); ($"   ", rd "0.0")] ($"   <-- h" ++ [newline])
      ($"      0.0   1.0E+001   0.0   ") ($"h") ($" ") [newline]); vmr. }
  apply mls_some.
  { apply (atom_of ($" ") ($"H") ($"      ") [d1] ($"    1.0E+000   2.0  -3.5E+000") ($"  ") ($"R") (rd "1.0E+000") (rd "2.0") (rd "-3.5E+000") ($" ") [newline]);
      [vmr| |vmr|vmr]. exists ($"H"), [], []. split; [reflexivity|]. split; [exists "H"%char, []|split; [now left|now left]].
    split; [reflexivity|]. split; [vm_compute; split; discriminate|]. split; [constructor|vm_compute; lia]. }
  apply mls_some; [|constructor].
  { apply (atom_of ($" ") ($"H:D") ($"    ") [d2] ($"    1.0E+000   2.0  -3.5E+000") ($"  ") ($"V") (rd "1.0E+000") (rd "2.0") (rd "-3.5E+000") ($" ") [newline]);
      [vmr| |vmr|vmr]. exists ($"H"), ($":D"), []. split; [reflexivity|]. split; [exists "H"%char, []|split; [right|now left]].
    - split; [reflexivity|]. split; [vm_compute; split; discriminate|]. split; [constructor|vm_compute; lia].
    - exists ($"D"). split; [reflexivity|]. split; [discriminate|]. now apply words_iff. }
Qed.
(** The frame of the example in full. *)
Example C33_ex_value : exists d ions, parse_md_geom_frame fr1 = Ok (VDict true ((kstr "ions", VDict false ions) :: d)) /\
  map fst d = [kstr "time"; kstr "E"; kstr "h"; kstr "energy"; kstr "lattice_vectors"] /\
  dget key_eqb d (kstr "lattice_vectors") = Some (rows_v [[rd "1.0E+001"; rd "0.0"; rd "0.0"]; [rd "0.0"; rd "1.0E+001"; rd "0.0"]]) /\
  map fst ions = [KTuple [kstr "H"; KInt 1]; KTuple [kstr "H:D"; KInt 2]].
Proof. do 2 eexists. split; [vmr|]. split; [reflexivity|]. split; vmr. Qed.

(** ** C34, C58 *)
Theorem C34_file_frames : forall s hdr c frames ls, reachable s -> delivers s (hdr ++ ls) -> md_header hdr c -> md_body frames ls -> frames <> [] ->
  parse_md_geom_file s = rmap VList (mapM parse_md_geom_frame frames) /\ fst (parse_header s) = Ok c.
Proof. exact md_file. Qed.
Print Assumptions C34_file_frames.
Theorem C34_no_frames : forall s, reachable s ->
  (forall ls, delivers s ls -> Forall blanks ls -> parse_md_geom_file s = Err ValueError) /\
  (forall ban c, md_banner ban c -> delivers s ban -> parse_md_geom_file s = Err StopIteration) /\
  (forall ban c bs, md_banner ban c -> delivers s (ban ++ bs) -> Forall blanks bs -> bs <> [] -> parse_md_geom_file s = Err ValueError).
Proof. exact md_file_none. Qed.
Print Assumptions C34_no_frames.

Definition fr2 : list str := lns ["      1.0000E+000"; "     -8.5E+000    -8.50E+000     2.0E-002  <-- E";
  "      1.0E+001   0.0   0.0   <-- h"; "      0.0   1.0E+001   0.0   <-- h"; " H      1    1.5E+000   2.0  -3.5E+000  <-- R";
  " H:D    2    1.5E+000   2.0  -3.5E+000  <-- V"]%string.
Definition ban1 : list str := lns [" BEGIN header"; "  made by hand  "; " END header"]%string.
Definition hdr1 : list str := ban1 ++ lns ["  "]%string.
Definition lineokb (l : str) : bool := negb (isempty l) && negb (str_eqb l empty_line).
Lemma unbroken_of fr : forallb lineokb fr = true -> unbroken fr.
Proof.
  apply forall_of. intros l H. apply andb_true_iff in H as [H1 H2]. split; [now apply ne_nil|]. intros ->. discriminate.
Qed.
Lemma frame_start_of fr : negb (isempty (strip (hd [] fr))) && negb (contains ($"BEGIN header") (hd [] fr)) = true -> frame_start fr.
Proof.
  intros H. apply andb_true_iff in H as [H1 H2]. destruct fr as [|l ls]; [discriminate|]. exists l, ls. split; [reflexivity|]. cbn [hd] in *.
  split; [|apply not_mentions_of; now apply negb_true_iff]. intros C. apply strip_empty in C. now rewrite C in H1.
Qed.
Example ban1_ok : md_banner ban1 ($"made by hand").
Proof.
  apply (mbn [] (ln " BEGIN header") [ln "  made by hand  "] (ln " END header")); [constructor| | | | |].
  - intros C. apply strip_empty in C. discriminate.
  - apply mentions_of; vmr.
  - constructor; [|constructor]. apply not_mentions_of; vmr.
  - apply mentions_of; vmr.
  - apply trimmed_of; vmr.
Qed.
Example hdr1_ok : md_header hdr1 ($"made by hand").
Proof. apply mh_some; [exact ban1_ok|]. right. eexists. split; [reflexivity|]. apply blanks_of. vmr. Qed.
Example C34_ex : reachable (SFile (fw_open (concat (hdr1 ++ framed [fr1; fr2])))) /\
  delivers (SFile (fw_open (concat (hdr1 ++ framed [fr1; fr2])))) (hdr1 ++ framed [fr1; fr2]) /\
  md_header hdr1 ($"made by hand") /\ md_body [fr1; fr2] (framed [fr1; fr2]) /\
  exists v1 v2, parse_md_geom_file (SFile (fw_open (concat (hdr1 ++ framed [fr1; fr2])))) = Ok (VList [v1; v2]).
Proof.
  split; [constructor|]. split; [|split; [exact hdr1_ok|split]].
  - apply delivers_file. pose proof (file_lines_spec (concat (hdr1 ++ framed [fr1; fr2]))) as H.
    replace (file_lines (concat (hdr1 ++ framed [fr1; fr2]))) with (hdr1 ++ framed [fr1; fr2]) in H by vmr. exact H.
  - apply framed_body; repeat (constructor; [first [apply frame_start_of; vmr|apply unbroken_of; vmr]|]); constructor.
  - do 2 eexists. vmr.
Qed.
(** Of two empty lines in a row the rest of the file is lost. *)
Theorem C35_two_empty_lines : forall s hdr c frames bs more, reachable s -> delivers s (hdr ++ framed frames ++ bs ++ empty_line :: more) ->
  md_header hdr c -> Forall frame_start frames -> Forall unbroken frames -> Forall blanks bs -> frames <> [] ->
  parse_md_geom_file s = rmap VList (mapM parse_md_geom_frame frames).
Proof. exact md_file_drop. Qed.
Print Assumptions C35_two_empty_lines.
(** Frames with a line of blanks between them, and frames two empty lines apart. *)
Definition spaced : list str := hdr1 ++ laid_out [(fr1, ln "  "); (fr2, ln "  ")].
Definition far : list str := hdr1 ++ fr1 ++ [empty_line; empty_line] ++ fr2 ++ [empty_line].
Theorem C35_separation_refuted :
  (exists v, parse_md_geom_file (SFile (fw_open (concat spaced))) = Ok (VList [v])) /\
  (exists v, parse_md_geom_file (SFile (fw_open (concat far))) = Ok (VList [v]) /\ parse_md_geom_frame fr1 = Ok v).
Proof. split; [eexists; vmr|eexists; split; vmr]. Qed.
Print Assumptions C35_separation_refuted.

(** ** C36 *)
Theorem C36_random_access : forall text hdr c blocks k fb, lazy_file text hdr c blocks k fb ->
  (exists p, md_open text = Ok p) /\
  forall p, used text p ->
    p_len p = length blocks /\
    (forall z, fst (get_frame p z) = frame_at blocks z) /\
    (forall zs, fst (get_frames p zs) = mapM (frame_at blocks) zs) /\
    (forall a b st, fst (get_slice p a b (Some st)) =
       if (st =? 0)%Z then Err ValueError else mapM (frame_at blocks) (indices (Z.of_nat (length blocks)) a b st)) /\
    (forall a b, fst (get_slice p a b None) = mapM (frame_at blocks) (indices (Z.of_nat (length blocks)) a b 1)) /\
    match p_next p with
    | Some i => (0 <= i < Z.of_nat (length blocks))%Z /\ fst (read_next p) = frame_at blocks i
    | None => fst (read_next p) = Err StopIteration
    end.
Proof. exact lazy_access. Qed.
Print Assumptions C36_random_access.
Theorem C36_next_frame : forall text hdr c blocks k fb p, lazy_file text hdr c blocks k fb -> used text p ->
  let n := Z.of_nat (length blocks) in
  let after i := if (i + 1 <? n)%Z then Some (i + 1)%Z else None in
  (md_open text = Ok p -> p_next p = Some 0%Z) /\
  (forall z, (- n <= z < n)%Z -> p_next (snd (get_frame p z)) = after (from_end n z)) /\
  (forall z, ~ (- n <= z < n)%Z -> snd (get_frame p z) = p) /\
  (p_next (snd (read_next p)) = match p_next p with Some i => after i | None => None end).
Proof. exact lazy_next. Qed.
Print Assumptions C36_next_frame.
Theorem C36_iteration : forall text hdr c blocks k fb p g sent j, lazy_file text hdr c blocks k fb -> used text p ->
  (g = GNew /\ sent = None /\ j = 0%Z \/ exists i, g = GAt i /\ j = match sent with Some t => t | None => (i + 1)%Z end) ->
  let '(r, p', g') := gen_next p g sent in
  if (Z.of_nat (length blocks) <=? j)%Z then r = Err StopIteration /\ g' = GDone
  else match frame_at blocks j with
       | Ok v => r = Ok v /\ g' = GAt j
       | Err e => r = Err (match e with StopIteration => RuntimeError | e => e end) /\ g' = GDone
       end.
Proof. exact lazy_iter. Qed.
Print Assumptions C36_iteration.
Theorem C36_for_loop : forall text hdr c blocks k fb p vs fuel, lazy_file text hdr c blocks k fb -> used text p ->
  mapM parse_md_geom_frame (map fst blocks) = Ok vs -> length blocks < fuel -> drain fuel p GNew = (vs, Some StopIteration).
Proof. exact lazy_for. Qed.
Print Assumptions C36_for_loop.

Lemma unblank_of fr : forallb (fun l => negb (isempty (strip l))) fr = true -> Forall (fun l => ~ blanks l) fr.
Proof. apply forall_of. intros l H C. apply strip_empty in C. now rewrite C in H. Qed.
Definition evenb (k n : nat) (blocks : list (list str * str)) : bool :=
  forallb (fun b => (length (fst b) =? k) && (length (concat (fst b)) + length (snd b) =? n) && isempty (strip (snd b)) && l_bool (fst b)) blocks.
Lemma even_of k n blocks : evenb k n blocks = true -> even k n blocks.
Proof.
  apply forall_of. intros b H. repeat (apply andb_true_iff in H as [H ?]). apply Nat.eqb_eq in H. 
  split; [exact H|]. split; [now apply Nat.eqb_eq|]. split; [now apply strip_empty|now apply l_bool_iff].
Qed.
Definition size1 : nat := Eval vm_compute in length (concat fr1) + 1.
Definition text1 : str := concat (hdr1 ++ framed [fr1; fr2; fr1]).
Example C36_ex : lazy_file text1 hdr1 ($"made by hand") (map (fun fr => (fr, empty_line)) [fr1; fr2; fr1]) 6 size1 /\
  exists p, used text1 p /\ p_next p = Some 2%Z.
Proof.
  split.
  - split; [|split; [exact hdr1_ok|split; [apply even_of; vmr|]]].
    + pose proof (file_lines_spec text1) as H. replace (file_lines text1) with (hdr1 ++ framed [fr1; fr2; fr1]) in H by vmr. exact H.
    + eexists _, _, _. split; [reflexivity|]. split; [apply frame_start_of; vmr|apply unblank_of; vmr].
  - assert (H : match md_open text1 with Ok p => p_next (snd (get_frame p (-2))) | Err _ => None end = Some 2%Z) by vmr.
    destruct (md_open text1) as [p|] eqn:E; [|discriminate]. exists (snd (get_frame p (-2))).
    split; [apply U_frame, U_open; exact E|exact H].
Qed.

(** ** C37 *)
Theorem C37_lazy_eager : forall text hdr c frames k fb p, lazy_file text hdr c (map (fun fr => (fr, empty_line)) frames) k fb ->
  Forall frame_start frames -> Forall unbroken frames -> used text p ->
  rmap VList (fst (get_slice p None None None)) = parse_md_geom_file (SFile (fw_open text)) /\
  forall vs, parse_md_geom_file (SFile (fw_open text)) = Ok (VList vs) ->
    p_len p = length vs /\ forall z, fst (get_frame p z) = match at_index vs z with Some v => Ok v | None => Err IndexError end.
Proof. exact lazy_eager. Qed.
Print Assumptions C37_lazy_eager.
Example C37_ex : Forall frame_start [fr1; fr2; fr1] /\ Forall unbroken [fr1; fr2; fr1].
Proof. split; repeat (constructor; [first [apply frame_start_of; vmr|apply unbroken_of; vmr]|]); constructor. Qed.
(** With lines of blanks between the frames they disagree: two frames and one. *)
Theorem C37_blank_separators_refuted : exists p v1 v2 v,
  md_open (concat spaced) = Ok p /\ p_len p = 2 /\ fst (get_slice p None None None) = Ok [v1; v2] /\
  parse_md_geom_file (SFile (fw_open (concat spaced))) = Ok (VList [v]).
Proof. do 4 eexists. split; [vmr|]. split; [vmr|]. split; vmr. Qed.
Print Assumptions C37_blank_separators_refuted.

(** ** C38.  The length is part of C36_random_access; the last frame without its
    blank line is not counted. *)
Theorem C38_short_file : forall text hdr c blocks last k fb, lines_of (hdr ++ laid_out blocks ++ last) text -> md_header hdr c -> even k fb blocks ->
  (exists fr sep more, blocks = (fr, sep) :: more /\ frame_start fr /\ Forall (fun l => ~ blanks l) fr) ->
  length (concat last) < fb ->
  exists p, md_open text = Ok p /\ p_len p = length blocks /\ fst (get_frame p (Z.of_nat (length blocks))) = Err IndexError.
Proof. exact lazy_short. Qed.
Print Assumptions C38_short_file.
Theorem C38_last_frame_refuted : exists p v1 v2, md_open (concat (hdr1 ++ fr1 ++ [empty_line] ++ fr2)) = Ok p /\ p_len p = 1 /\
  parse_md_geom_file (SFile (fw_open (concat (hdr1 ++ fr1 ++ [empty_line] ++ fr2)))) = Ok (VList [v1; v2]).
Proof. do 3 eexists. split; [vmr|]. split; vmr. Qed.
Print Assumptions C38_last_frame_refuted.
