(** Facts about MDGeomParser. *)
From Coq Require Import Sorting.Sorted.
From Verif Require Import PyBase PyFacts PyVal Regex SpecLine SpecTable SpecStr StrUtilFacts SpecText SpecBands SpecDict NumProps
  FileWrapper FileWrapperObs FileWrapperFacts FortranFacts Stream StreamFacts TextParsersFacts SpecMd MdGeom MdFacts MdFileFacts.
Local Open Scope list_scope.
Local Open Scope nat_scope.

(** ** A file stays the same file *)
Definition src_text (s : source) : option str := match s with SFile f => Some (fw_content f) | SBlock _ => None end.
Lemma next_text s : src_text (snd (src_next s)) = src_text s.
Proof.
  destruct s as [f|b]; cbn.
  - unfold fw_next. destruct (isempty _); reflexivity.
  - destruct (b_next b); reflexivity.
Qed.
Lemma rewind_text s : src_text (snd (src_rewind s)) = src_text s.
Proof.
  destruct s as [f|b]; cbn.
  - unfold fw_rewind. destruct (_ =? _); reflexivity.
  - destruct (b_rewind b); reflexivity.
Qed.
Lemma first_text_text : forall fuel l s, src_text (snd (first_text fuel l s)) = src_text s.
Proof.
  induction fuel as [|fuel IH]; intros l s; cbn [first_text]; [reflexivity|].
  pose proof (next_text s) as E. destruct (src_next s) as [[x|e] s']; cbn in *; [|exact E].
  destruct (isempty (strip x)); [now rewrite IH|exact E].
Qed.
Lemma from_re_loop_text endp n : forall fuel found acc s, src_text (snd (from_re_loop fuel endp n found acc s)) = src_text s.
Proof.
  induction fuel as [|fuel IH]; intros found acc s; cbn [from_re_loop]; [reflexivity|].
  pose proof (next_text s) as E. destruct (src_next s) as [[x|e] s']; cbn [snd] in *; [|exact E].
  destruct (endp x); [destruct (S found =? n)|]; cbn [snd]; rewrite ?IH; exact E.
Qed.
Lemma from_re_text init s startp endp n eof : src_text (snd (from_re init s startp endp n eof)) = src_text s.
Proof.
  unfold from_re. destruct (negb (startp init)); [reflexivity|].
  pose proof (from_re_loop_text endp n (src_fuel s) 0 [init] s) as E. destruct (from_re_loop _ _ _ _ _ s) as [[d br] s'].
  cbn in E. destruct (br || eof); exact E.
Qed.
Lemma header_text s : src_text (snd (parse_header s)) = src_text s.
Proof.
  unfold parse_header. pose proof (first_text_text (src_fuel s) [] s) as E1. destruct (first_text _ _ s) as [l s1]. cbn [snd] in E1.
  pose proof (from_re_text l s1 (contains ($"BEGIN header")) (contains ($"END header")) 1 false) as E2.
  destruct (from_re l s1 _ _ 1 false) as [[b|e] s2]; cbn [snd] in *; [|congruence].
  pose proof (rewind_text s2) as E3. pose proof (next_text s2) as E4. destruct (b_bool b).
  - destruct (src_next s2) as [[x|e] s3]; cbn [snd] in *; [|congruence]. destruct (isempty (strip x)); cbn [snd]; [congruence|].
    pose proof (rewind_text s3) as E5. destruct (src_rewind s3) as [r s4]. cbn [snd] in *. congruence.
  - destruct (src_rewind s2) as [r s4]. cbn [snd] in *. congruence.
Qed.

(** ** Positions *)
Lemma file_off f : src_wf (SFile f) -> fw_off f + length (concat (src_rest (SFile f))) = length (fw_content f).
Proof.
  intros (c & fails & Hk & Ho & _). cbn [src_rest]. rewrite Ho, skipn_offset, lines_suffix. unfold offset.
  rewrite <- app_length, <- concat_app, firstn_skipn, lines_concat. reflexivity.
Qed.
Lemma lines_app_suffix text a b : lines text = a ++ b -> lines (skipn (length (concat a)) text) = b.
Proof.
  intros E. assert (T : text = concat a ++ concat b) by (rewrite <- concat_app, <- E; symmetry; apply lines_concat).
  rewrite T at 1. rewrite skipn_app, skipn_all, Nat.sub_diag. cbn [skipn app].
  pose proof (lines_suffix (length a) text) as L. rewrite E, skipn_app, skipn_all, Nat.sub_diag in L. exact L.
Qed.
(** [next] on a file, wherever it stands *)
Lemma file_next f : match src_rest (SFile f) with
  | [] => fst (fw_next f) = Err StopIteration /\ fw_off (snd (fw_next f)) = fw_off f
  | l :: ls => fst (fw_next f) = Ok l /\ fw_off (snd (fw_next f)) = fw_off f + length l /\ src_rest (SFile (snd (fw_next f))) = ls
  end /\ fw_content (snd (fw_next f)) = fw_content f /\ fw_lineno (snd (fw_next f)) = (fw_lineno f + 1)%Z.
Proof.
  cbn [src_rest]. unfold fw_next, readline. set (t := skipn (fw_off f) (fw_content f)). destruct t as [|x t'] eqn:T.
  - cbn. auto with arith.
  - rewrite (lines_take (x :: t')) by discriminate. pose proof (take_line_nonempty (x :: t')) as N.
    pose proof (take_line_cat (x :: t')) as C. destruct (take_line (x :: t')) as [l r]. cbn [fst snd] in *.
    destruct l as [|y l]; [exfalso; now apply N|]. cbn [isempty fst snd fw_off fw_content fw_lineno src_rest]. repeat split.
    rewrite <- skipn_skipn'. fold t. rewrite T, <- C, skipn_app, skipn_all, Nat.sub_diag. reflexivity.
Qed.

Lemma skip_frame_ok fr sep rest : Forall (fun l => ~ blanks l) fr -> blanks sep -> forall fuel f,
  src_rest (SFile f) = fr ++ sep :: rest -> length fr < fuel -> exists f',
  skip_frame fuel f = (Ok tt, f') /\ fw_content f' = fw_content f /\ fw_off f' = fw_off f + length (concat fr) + length sep /\
  fw_lineno f' = (fw_lineno f + Z.of_nat (length fr) + 1)%Z.
Proof.
  intros Hf Hs. induction Hf as [|l fr Hl _ IH]; intros fuel f E Hfuel; (destruct fuel as [|fuel]; [cbn in Hfuel; lia|]); cbn [skip_frame];
    destruct (file_next f) as (Hn & Hc & Hl'); rewrite E in Hn; cbn [app] in Hn; destruct (fw_next f) as [r f1]; cbn [fst snd] in *;
    destruct Hn as (-> & Ho & Hr).
  - apply strip_empty in Hs. rewrite Hs. exists f1. cbn. split; [reflexivity|]. split; [exact Hc|]. split; lia.
  - destruct (isempty (strip l)) eqn:S; [apply strip_empty in S; contradiction|].
    destruct (IH fuel f1 Hr) as (f' & -> & C & O & L); [cbn in Hfuel; lia|]. exists f'. cbn [concat length]. rewrite app_length.
    split; [reflexivity|]. split; [congruence|]. split; lia.
Qed.

(** [Block.get_lines] on a file, wherever it stands *)
Lemma file_get_lines_loop : forall fuel n i acc f, length (src_rest (SFile f)) < fuel -> i <= S n -> S n - i < length (src_rest (SFile f)) ->
  exists f', get_lines_loop fuel n i acc (SFile f) = (acc ++ firstn (S n - i) (src_rest (SFile f)), true, SFile f') /\
    fw_content f' = fw_content f /\ fw_off f' = fw_off f + length (concat (firstn (S (S n - i)) (src_rest (SFile f)))).
Proof.
  induction fuel as [|fuel IH]; intros n i acc f Hf Hi Hl; [lia|]. cbn [get_lines_loop src_next].
  destruct (file_next f) as (Hn & Hc & _). destruct (src_rest (SFile f)) as [|l ls] eqn:E; [cbn in Hl; lia|].
  destruct (fw_next f) as [r f1]. cbn [fst snd] in *. destruct Hn as (-> & Ho & Hr).
  destruct (Nat.ltb_spec n i) as [Hlt|Hge].
  - replace (S n - i) with 0 by lia. exists f1. cbn [firstn concat]. rewrite !app_nil_r. auto.
  - destruct (IH n (S i) (acc ++ [l]) f1) as (f' & -> & C & O); rewrite ?Hr; [cbn [length] in Hf; lia|lia|cbn [length] in Hl; lia|].
    exists f'. replace (S n - i) with (S (S n - S i)) by lia. rewrite Hr in O. cbn [firstn concat]. rewrite <- app_assoc, app_length.
    split; [reflexivity|]. split; [congruence|]. cbn [firstn concat] in O. lia.
Qed.
Lemma file_fuel f : length (src_rest (SFile f)) < src_fuel (SFile f).
Proof.
  cbn. assert (L : forall t, length (lines t) <= length t).
  { intros t. rewrite <- (lines_concat t) at 2. pose proof (lines_nonempty t) as F. induction F as [|x l H _ IH]; [cbn; lia|].
    cbn. rewrite app_length. destruct x; [contradiction|cbn; lia]. }
  specialize (L (skipn (fw_off f) (fw_content f))). rewrite skipn_length in L. lia.
Qed.
Lemma file_get_lines f n : n < length (src_rest (SFile f)) -> exists f',
  get_lines (SFile f) n true = (Ok (new_block (Some (SFile f)) (firstn n (src_rest (SFile f)))), SFile f') /\
  fw_content f' = fw_content f /\ fw_off f' = fw_off f + length (concat (firstn (S n) (src_rest (SFile f)))).
Proof.
  intros H. unfold get_lines. destruct (file_get_lines_loop (src_fuel (SFile f)) n 1 [] f (file_fuel f)) as (f' & -> & C & O); [lia| |].
  - replace (S n - 1) with n by lia. exact H.
  - replace (S n - 1) with n in * by lia. exists f'. auto.
Qed.
Lemma file_get_lines_end f n : src_rest (SFile f) = [] -> exists f',
  get_lines (SFile f) n true = (Ok (new_block (Some (SFile f)) []), SFile f') /\ fw_content f' = fw_content f /\ fw_off f' = fw_off f.
Proof.
  intros E. unfold get_lines. pose proof (file_fuel f) as F. destruct (src_fuel (SFile f)) as [|fuel]; [lia|]. cbn [get_lines_loop src_next].
  destruct (file_next f) as (Hn & Hc & _). rewrite E in Hn. destruct (fw_next f) as [r f1]. cbn [fst snd] in *. destruct Hn as (-> & Ho).
  exists f1. auto.
Qed.

(** ** The parser's state *)
Lemma laid_out_app a b : laid_out (a ++ b) = laid_out a ++ laid_out b.
Proof. unfold laid_out. now rewrite map_app, concat_app. Qed.
Lemma even_bytes k fb bs : even k fb bs -> length (concat (laid_out bs)) = fb * length bs.
Proof.
  induction 1 as [|b bs (Hk & Hn & _) _ IH]; [cbn; lia|]. change (b :: bs) with ([b] ++ bs). rewrite laid_out_app, concat_app, app_length, IH.
  unfold laid_out. cbn. rewrite app_nil_r, concat_app, app_length. cbn. rewrite app_nil_r. lia.
Qed.
Section File.
  Context (text : str) (hdr : list str) (blocks : list (list str * str)) (k fb : nat).
  Context (Lines : lines text = hdr ++ laid_out blocks) (Even : even k fb blocks).
  Let start := length (concat hdr).
  Let n := length blocks.

  Lemma rest_at f i : i <= n -> fw_content f = text -> fw_off f = start + fb * i -> src_rest (SFile f) = laid_out (skipn i blocks).
  Proof.
    intros Hi C O. cbn [src_rest]. rewrite C, O.
    assert (E : start + fb * i = length (concat (hdr ++ laid_out (firstn i blocks)))).
    { rewrite concat_app, app_length, (even_bytes k fb), firstn_length_le by
        (first [exact Hi|unfold even in *; rewrite <- (firstn_skipn i blocks) in Even; now apply Forall_app in Even]). reflexivity. }
    rewrite E. apply lines_app_suffix. rewrite <- app_assoc, <- laid_out_app, firstn_skipn. exact Lines.
  Qed.

  Definition inv (p : mdp) : Prop :=
    fw_content (p_handle p) = text /\ p_start p = start /\ p_frame_lines p = Z.of_nat k /\ p_frame_bytes p = fb /\ p_len p = n /\
    match p_next p with
    | Some i => (0 <= i < Z.of_nat n)%Z /\ fw_off (p_handle p) = start + fb * Z.to_nat i
    | None => fw_off (p_handle p) = start + fb * n
    end.
  Definition frame_nr (i : nat) : result pyval :=
    match nth_error blocks i with Some b => parse_md_geom_frame (fst b) | None => Err IndexError end.

  Lemma read_next_inv p : inv p ->
    inv (snd (read_next p)) /\
    match p_next p with
    | Some i => fst (read_next p) = frame_nr (Z.to_nat i) /\
                p_next (snd (read_next p)) = (if (i + 1 <? Z.of_nat n)%Z then Some (i + 1)%Z else None)
    | None => fst (read_next p) = Err StopIteration /\ p_next (snd (read_next p)) = None
    end.
  Proof.
    intros (C & S & FL & FB & L & Nx). unfold read_next. rewrite FL, Nat2Z.id. destruct (p_next p) as [i|] eqn:Ep.
    - destruct Nx as [Hi O]. assert (Hi' : Z.to_nat i < n) by lia.
      pose proof (rest_at (p_handle p) (Z.to_nat i) ltac:(lia) C O) as R.
      destruct (nth_error blocks (Z.to_nat i)) as [b|] eqn:Eb; [|apply nth_error_None in Eb; fold n in Eb; lia].
      rewrite (skipn_nth _ _ _ Eb) in R. change (b :: skipn (Datatypes.S (Z.to_nat i)) blocks) with ([b] ++ skipn (Datatypes.S (Z.to_nat i)) blocks) in R.
      rewrite laid_out_app in R. unfold laid_out at 1 in R. cbn [map concat] in R. rewrite app_nil_r, <- app_assoc in R. cbn [app] in R.
      assert (Hb : length (fst b) = k /\ length (concat (fst b)) + length (snd b) = fb /\ ~ Forall blanks (fst b)).
      { unfold even in Even. rewrite Forall_forall in Even. destruct (Even b) as (A1 & A2 & _ & A3); [eapply nth_error_In; exact Eb|]. auto. }
      destruct Hb as (Hk & Hn & Hnb).
      destruct (file_get_lines (p_handle p) k) as (f' & -> & C' & O'); [rewrite R, app_length; cbn; lia|].
      rewrite R in O' |- *.
      assert (F1 : firstn k (fst b ++ snd b :: laid_out (skipn (Datatypes.S (Z.to_nat i)) blocks)) = fst b).
      { rewrite firstn_app, <- Hk, firstn_all, Nat.sub_diag. cbn. apply app_nil_r. }
      assert (F2 : firstn (Datatypes.S k) (fst b ++ snd b :: laid_out (skipn (Datatypes.S (Z.to_nat i)) blocks)) = fst b ++ [snd b]).
      { rewrite firstn_app, <- Hk, firstn_all2 by lia. replace (Datatypes.S (length (fst b)) - length (fst b)) with 1 by lia. reflexivity. }
      rewrite F1. rewrite F2, concat_app, app_length in O'. cbn [concat] in O'. rewrite app_nil_r in O'.
      replace (b_bool (new_block (Some (SFile (p_handle p))) (fst b))) with true by (symmetry; now apply l_bool_iff).
      cbn [fst snd]. unfold frame_nr. rewrite Eb, L. split; [|split].
      + unfold inv. cbn [p_handle p_start p_frame_lines p_frame_bytes p_len p_next]. repeat (split; [congruence|]).
        destruct (Z.ltb_spec i (Z.of_nat n - 1)); [split; [lia|]|]; rewrite O', O.
        * replace (Z.to_nat (i + 1)) with (Datatypes.S (Z.to_nat i)) by lia. lia.
        * assert (Datatypes.S (Z.to_nat i) = n) by lia. rewrite <- H0. lia.
      + reflexivity.
      + cbn [p_next]. destruct (Z.ltb_spec i (Z.of_nat n - 1)), (Z.ltb_spec (i + 1) (Z.of_nat n)); try lia; reflexivity.
    - pose proof (rest_at (p_handle p) n (le_n _) C Nx) as R. unfold n in R at 1. rewrite skipn_all in R. cbn in R.
      destruct (file_get_lines_end (p_handle p) k R) as (f' & -> & C' & O'). cbn [b_bool new_block b_data existsb fst snd p_next].
      split; [|auto]. unfold inv. cbn [p_handle p_start p_frame_lines p_frame_bytes p_len p_next]. repeat (split; [congruence|]). congruence.
  Qed.
  Lemma go_to_inv p i : inv p -> (0 <= i < Z.of_nat n)%Z -> inv (go_to_frame p i) /\ p_next (go_to_frame p i) = Some i.
  Proof.
    intros (C & S & FL & FB & L & Nx) Hi. unfold go_to_frame, inv. cbn. rewrite L. destruct (Z.ltb_spec i (Z.of_nat n)); [|lia].
    rewrite S, FB. auto 10.
  Qed.
  (** [l[i]] *)
  Definition frame_at (z : Z) : result pyval :=
    match at_index blocks z with Some b => parse_md_geom_frame (fst b) | None => Err IndexError end.
  Lemma get_frame_inv p z : inv p -> inv (snd (get_frame p z)) /\ fst (get_frame p z) = frame_at z /\
    forall i, from_end (Z.of_nat n) z = i -> (0 <= i < Z.of_nat n)%Z ->
      p_next (snd (get_frame p z)) = (if (i + 1 <? Z.of_nat n)%Z then Some (i + 1)%Z else None).
  Proof.
    intros I. pose proof I as (C & S & FL & FB & L & Nx). unfold get_frame. rewrite L.
    unfold frame_at, at_index. fold n. unfold from_end.
    destruct (Z.leb_spec (- Z.of_nat n) z) as [A|A], (Z.ltb_spec z (Z.of_nat n)) as [B|B]; cbn [andb negb].
    2-4: cbn [fst snd]; split; [exact I|]; split; [|intros i; destruct (Z.ltb_spec z 0); lia].
    2-4: destruct (Z.ltb_spec z 0); [destruct (Z.ltb_spec (z + Z.of_nat n) 0)|destruct (Z.ltb_spec z 0)]; try lia; try reflexivity.
    2: rewrite (proj2 (nth_error_None _ _)); [reflexivity|fold n; lia].
    set (i := if (z <? 0)%Z then (Z.of_nat n + z)%Z else z).
    replace (if (z <? 0)%Z then (z + Z.of_nat n)%Z else z) with i by (unfold i; destruct (z <? 0)%Z; lia).
    assert (Hi : (0 <= i < Z.of_nat n)%Z) by (unfold i; destruct (Z.ltb_spec z 0); lia).
    destruct (Z.ltb_spec i 0); [lia|].
    assert (G : exists p1, inv p1 /\ p_next p1 = Some i /\
       match p_next p with Some k0 => if (i =? k0)%Z then p else go_to_frame p i | None => go_to_frame p i end = p1).
    { destruct (go_to_inv p i I Hi) as [G1 G2]. destruct (p_next p) as [j|] eqn:Ep; [|eauto].
      destruct (Z.eqb_spec i j) as [->|]; eauto. }
    destruct G as (p1 & I1 & N1 & ->). destruct (read_next_inv p1 I1) as [R1 R2]. rewrite N1 in R2. destruct R2 as [R2 R3].
    split; [exact R1|]. split; [exact R2|]. intros i' <- _. exact R3.
  Qed.
  Lemma get_frames_inv : forall zs p, inv p -> inv (snd (get_frames p zs)) /\ fst (get_frames p zs) = mapM frame_at zs.
  Proof.
    induction zs as [|z zs IH]; intros p I; [cbn; auto|]. cbn [get_frames mapM]. destruct (get_frame_inv p z I) as (I1 & E & _).
    destruct (get_frame p z) as [[v|e] p']; cbn [fst snd] in *; rewrite <- E; [|auto].
    destruct (IH p' I1) as [I2 E2]. destruct (get_frames p' zs) as [r p'']. cbn [fst snd bind] in *. rewrite <- E2. destruct r; auto.
  Qed.
  Lemma get_slice_inv p a b st : inv p -> inv (snd (get_slice p a b st)).
  Proof.
    intros I. unfold get_slice. destruct (slice_indices _ a b st) as [[[x y] z]|]; [|exact I]. now apply get_frames_inv.
  Qed.
  Lemma gen_next_inv p g sent : inv p -> inv (snd (fst (gen_next p g sent))).
  Proof.
    intros I. assert (G : forall i, inv (snd (fst (if (i <? Z.of_nat (p_len p))%Z then
      match get_frame p i with
      | (Ok v, p') => (Ok v, p', GAt i)
      | (Err e, p') => (Err (match e with StopIteration => RuntimeError | e => e end), p', GDone)
      end else (Err StopIteration, p, GDone))))).
    { intros i. destruct (i <? _)%Z; [|exact I]. destruct (get_frame_inv p i I) as [I1 _]. destruct (get_frame p i) as [[v|e] p']; exact I1. }
    unfold gen_next. destruct g; [destruct sent| |]; try exact I; apply G.
  Qed.
End File.

(** ** Opening a file *)
Lemma md_open_any text hdr c blocks extra k fb : lines text = hdr ++ laid_out blocks ++ extra -> md_header hdr c -> even k fb blocks ->
  (exists fr sep more, blocks = (fr, sep) :: more /\ frame_start fr /\ Forall (fun l => ~ blanks l) fr) -> length (concat extra) < fb ->
  exists p, md_open text = Ok p /\ fw_content (p_handle p) = text /\ p_start p = length (concat hdr) /\ p_frame_lines p = Z.of_nat k /\
    p_frame_bytes p = fb /\ p_len p = length blocks /\ p_next p = Some 0%Z /\ fw_off (p_handle p) = length (concat hdr).
Proof.
  intros L Hh He (fr & sep & more & -> & Hf & Hnb) Hx. unfold md_open.
  assert (W : src_wf (SFile (fw_open text))) by (eexists _, _; apply fw_inv_open).
  assert (R0 : src_rest (SFile (fw_open text)) = hdr ++ laid_out ((fr, sep) :: more) ++ extra) by exact L.
  assert (Hs : frame_start (laid_out ((fr, sep) :: more) ++ extra)).
  { destruct Hf as (l & ls & -> & H). eexists _, _. split; [reflexivity|exact H]. }
  destruct (header_ok _ hdr c _ W Hh R0 Hs) as (s' & Eh & Hwf & Er). pose proof (header_text (SFile (fw_open text))) as T.
  rewrite Eh in T |- *. cbn [snd] in T. destruct s' as [f|]; [|discriminate]. cbn in T. injection T as T.
  pose proof (file_off f Hwf) as O. rewrite Er, T in O.
  assert (Lt : length text = length (concat hdr) + fb * S (length more) + length (concat extra)).
  { rewrite <- (lines_concat text), L, !concat_app, !app_length, (even_bytes k fb _ He). cbn [length]. lia. }
  rewrite concat_app, app_length, (even_bytes k fb _ He) in O. cbn [length] in O.
  assert (Of : fw_off f = length (concat hdr)) by lia.
  inversion He as [|? ? (Hk & Hb & Hsep & _) _]; subst x l. cbn [fst snd] in *.
  assert (Er' : src_rest (SFile f) = fr ++ sep :: laid_out more ++ extra).
  { rewrite Er. unfold laid_out. cbn. now rewrite <- !app_assoc. }
  pose proof (file_fuel f) as Fu. rewrite Er', app_length in Fu. cbn [length] in Fu.
  destruct (skip_frame_ok fr sep (laid_out more ++ extra) Hnb Hsep (src_fuel (SFile f)) f Er') as (f' & -> & C' & O' & N'); [lia|].
  eexists. split; [reflexivity|].
  assert (Fb : fw_off f' - fw_off f = fb) by lia. assert (Fp : 0 < fb) by lia.
  rewrite Fb, Lt, Of.
  replace (length (concat hdr) + fb * S (length more) + length (concat extra) - length (concat hdr)) with (length (concat extra) + S (length more) * fb) by lia.
  rewrite Nat.div_add, Nat.div_small by lia. unfold go_to_frame. cbn [p_handle p_start p_frame_lines p_frame_bytes p_len p_next fw_content fw_off].
  destruct (Z.ltb_spec 0 (Z.of_nat (0 + S (length more)))); [|lia]. cbn [length].
  repeat split; try congruence; lia.
Qed.
Definition lazy_file (text : str) (hdr : list str) (c : str) (blocks : list (list str * str)) (k fb : nat) : Prop :=
  lines_of (hdr ++ laid_out blocks) text /\ md_header hdr c /\ even k fb blocks /\
  exists fr sep more, blocks = (fr, sep) :: more /\ frame_start fr /\ Forall (fun l => ~ blanks l) fr.
Theorem md_open_ok text hdr c blocks k fb : lazy_file text hdr c blocks k fb ->
  exists p, md_open text = Ok p /\ inv text hdr blocks k fb p /\ p_next p = Some 0%Z.
Proof.
  intros (L & Hh & He & H1). apply lines_of_unique in L.
  assert (Fp : 0 < fb).
  { destruct H1 as (fr & sep & more & -> & (l & ls & -> & Hl & _) & _). inversion He as [|? ? (_ & Hb & _) _]; subst. cbn in *.
    rewrite app_length. destruct l as [|x l]; [exfalso; apply Hl; constructor|cbn; lia]. }
  destruct (md_open_any text hdr c blocks [] k fb) as (p & Ep & C & S & FL & FB & Ln & Nx & O); auto; [now rewrite app_nil_r|].
  exists p. split; [exact Ep|]. split; [|exact Nx]. unfold inv. rewrite Nx. repeat (split; [assumption|]).
  destruct H1 as (fr & sep & more & -> & _). cbn [length]. split; [lia|]. rewrite O. cbn. lia.
Qed.

(** ** Slices *)
Lemma sorted_ext {A} (R : A -> A -> Prop) : (forall x, ~ R x x) -> (forall x y, R x y -> ~ R y x) ->
  forall l l', StronglySorted R l -> StronglySorted R l' -> (forall x, In x l <-> In x l') -> l = l'.
Proof.
  intros Irr Asym. induction l as [|a l IH]; intros [|b l'] H1 H2 E; [reflexivity| | |].
  - destruct (proj2 (E b) (or_introl eq_refl)).
  - destruct (proj1 (E a) (or_introl eq_refl)).
  - inversion H1 as [|? ? S1 F1]; subst. inversion H2 as [|? ? S2 F2]; subst. rewrite Forall_forall in F1, F2.
    assert (a = b) as ->.
    { destruct (proj1 (E a) (or_introl eq_refl)) as [|Ha]; [auto|]. destruct (proj2 (E b) (or_introl eq_refl)) as [|Hb]; [auto|].
      exfalso. exact (Asym _ _ (F1 b Hb) (F2 a Ha)). }
    f_equal. apply IH; auto. intros x. split; intros Hx.
    + destruct (proj1 (E x) (or_intror Hx)) as [<-|]; [|auto]. exfalso. exact (Irr _ (F1 _ Hx)).
    + destruct (proj2 (E x) (or_intror Hx)) as [<-|]; [|auto]. exfalso. exact (Irr _ (F2 _ Hx)).
Qed.
Lemma sorted_filter {A} (R : A -> A -> Prop) f l : StronglySorted R l -> StronglySorted R (filter f l).
Proof.
  induction 1 as [|a l S IH F]; [constructor|]. cbn. destruct (f a); [|exact IH]. constructor; [exact IH|].
  rewrite Forall_forall in *. intros x Hx. apply filter_In in Hx as [Hx _]. auto.
Qed.
Lemma sorted_map_seq (f : nat -> Z) (R : Z -> Z -> Prop) : (forall i j, i < j -> R (f i) (f j)) ->
  forall m i, StronglySorted R (map f (seq i m)).
Proof.
  intros H. induction m as [|m IH]; intros i; cbn; constructor; [apply IH|]. rewrite Forall_forall. intros x Hx.
  apply in_map_iff in Hx as (j & <- & Hj). apply in_seq in Hj. apply H. lia.
Qed.
Lemma sorted_snoc {A} (R : A -> A -> Prop) l x : StronglySorted R l -> Forall (fun y => R y x) l -> StronglySorted R (l ++ [x]).
Proof.
  induction 1 as [|a l S IH F]; intros H; cbn; [constructor; constructor|]. inversion H; subst. constructor; [auto|].
  apply Forall_app. auto.
Qed.
Lemma sorted_rev {A} (R : A -> A -> Prop) l : StronglySorted R l -> StronglySorted (fun x y => R y x) (rev l).
Proof.
  induction 1 as [|a l S IH F]; [constructor|]. cbn. apply sorted_snoc; [exact IH|]. rewrite Forall_forall in *. intros x Hx. apply F. now apply in_rev.
Qed.
Lemma range_up a b k x : (0 < k)%Z -> In x (py_range a b k) <-> (a <= x < b)%Z /\ ((x - a) mod k = 0)%Z.
Proof.
  intros Hk. unfold py_range. destruct (Z.ltb_spec 0 k); [|lia]. rewrite in_map_iff. split.
  - intros (i & <- & Hi). apply in_seq in Hi. assert (Z.of_nat i < (b - a + k - 1) / k)%Z by lia.
    pose proof (Z.mul_div_le (b - a + k - 1) k Hk). split; [nia|]. replace (a + Z.of_nat i * k - a)%Z with (Z.of_nat i * k)%Z by lia.
    apply Z.mod_mul. lia.
  - intros [Hx Hm]. apply Z.mod_divide in Hm as (q & Hq); [|lia]. exists (Z.to_nat q). assert (0 <= q)%Z by nia. split; [lia|].
    apply in_seq. assert (q + 1 <= (b - a + k - 1) / k)%Z; [|lia]. apply Z.div_le_lower_bound; nia.
Qed.
Lemma range_down a b k x : (k < 0)%Z -> In x (py_range a b k) <-> (b < x <= a)%Z /\ ((a - x) mod (- k) = 0)%Z.
Proof.
  intros Hk. unfold py_range. destruct (Z.ltb_spec 0 k); [lia|]. rewrite in_map_iff. split.
  - intros (i & <- & Hi). apply in_seq in Hi. assert (Z.of_nat i < (a - b - k - 1) / - k)%Z by lia.
    pose proof (Z.mul_div_le (a - b - k - 1) (- k) ltac:(lia)). split; [nia|].
    replace (a - (a + Z.of_nat i * k))%Z with (Z.of_nat i * - k)%Z by lia. apply Z.mod_mul. lia.
  - intros [Hx Hm]. apply Z.mod_divide in Hm as (q & Hq); [|lia]. exists (Z.to_nat q). assert (0 <= q)%Z by nia. split; [nia|].
    apply in_seq. assert (q + 1 <= (a - b - k - 1) / - k)%Z; [|lia]. apply Z.div_le_lower_bound; nia.
Qed.
Lemma in_all n x : (0 <= n)%Z -> In x (map Z.of_nat (seq 0 (Z.to_nat n))) <-> (0 <= x < n)%Z.
Proof.
  intros Hn. rewrite in_map_iff. split; [intros (i & <- & Hi); apply in_seq in Hi; lia|].
  intros H. exists (Z.to_nat x). split; [lia|]. apply in_seq. lia.
Qed.
Theorem slice_ok n start stop step : (0 <= n)%Z ->
  match slice_indices n start stop step with
  | Ok (a, b, k) => (k = match step with Some k => k | None => 1 end)%Z /\ k <> 0%Z /\ py_range a b k = indices n start stop k
  | Err e => e = ValueError /\ step = Some 0%Z
  end.
Proof.
  intros Hn. unfold slice_indices. set (k := match step with Some k => k | None => 1%Z end).
  destruct (Z.eqb_spec k 0) as [Hk|Hk].
  { split; [reflexivity|]. unfold k in Hk. destruct step; [congruence|discriminate]. }
  split; [reflexivity|]. split; [exact Hk|]. unfold indices. destruct (Z.ltb_spec k 0) as [Hneg|Hpos].
  - destruct (Z.ltb_spec 0 k); [lia|]. apply sorted_ext with (fun x y => (y < x)%Z); [intros; lia|intros; lia| | |].
    + apply sorted_map_seq. intros. nia.
    + apply sorted_filter, (sorted_rev Z.lt), sorted_map_seq. intros. lia.
    + intros x. rewrite range_down by exact Hneg. rewrite filter_In, <- in_rev, in_all by exact Hn.
      rewrite !andb_true_iff, Z.leb_le, Z.ltb_lt, Z.eqb_eq.
      assert (A : forall A B C D : Prop, (C -> (A <-> B /\ D)) -> (A /\ C <-> B /\ D /\ C)) by tauto.
      set (a0 := match start with Some x0 => Z.min (n - 1) (from_end n x0) | None => (n - 1)%Z end).
      set (b0 := match stop with Some x0 => from_end n x0 | None => (-1)%Z end).
      set (a1 := match start with Some x0 => slice_bound n true x0 | None => (n - 1)%Z end).
      set (b1 := match stop with Some x0 => slice_bound n true x0 | None => (-1)%Z end).
      assert (Ha : (a0 = a1 \/ (a0 < 0 /\ a1 < 0))%Z).
      { unfold a0, a1, slice_bound, from_end. destruct start as [y|]; [|auto].
        destruct (Z.ltb_spec y 0), (Z.ltb_spec (y + n) 0), (Z.leb_spec n y); lia. }
      assert (Hb : (b0 = b1 \/ (b0 < 0 /\ b1 < 0) \/ (n - 1 <= b0 /\ n - 1 <= b1))%Z).
      { unfold b0, b1, slice_bound, from_end. destruct stop as [y|]; [|auto].
        destruct (Z.ltb_spec y 0), (Z.ltb_spec (y + n) 0), (Z.leb_spec n y); lia. }
      assert (Hc : (a1 <= n - 1 /\ -1 <= b1)%Z).
      { unfold a1, b1, slice_bound. destruct start as [y|], stop as [z|];
          repeat match goal with |- context [(?a <? ?b)%Z] => destruct (Z.ltb_spec a b) | |- context [(?a <=? ?b)%Z] => destruct (Z.leb_spec a b) end; lia. }
      destruct Ha as [->|Ha]; [|lia]. assert (forall P : Prop, ((b1 < x <= a1)%Z /\ P) <-> (((0 <= x < n)%Z /\ ((x <= a1)%Z /\ (b0 < x)%Z) /\ P))); [|auto].
      intros P. destruct Hb as [->|Hb]; intuition lia.
  - destruct (Z.ltb_spec 0 k); [|lia]. apply sorted_ext with Z.lt; [intros; lia|intros; lia| | |].
    + apply sorted_map_seq. intros. nia.
    + apply sorted_filter, sorted_map_seq. intros. lia.
    + intros x. rewrite range_up by lia. rewrite filter_In, in_all by exact Hn. rewrite !andb_true_iff, Z.leb_le, Z.ltb_lt, Z.eqb_eq.
      set (a0 := match start with Some x0 => Z.max 0 (from_end n x0) | None => 0%Z end).
      set (b0 := match stop with Some x0 => from_end n x0 | None => n end).
      set (a1 := match start with Some x0 => slice_bound n false x0 | None => 0%Z end).
      set (b1 := match stop with Some x0 => slice_bound n false x0 | None => n end).
      assert (Ha : (a0 = a1 \/ (n <= a0 /\ n <= a1))%Z).
      { unfold a0, a1, slice_bound, from_end. destruct start as [y|]; [|auto].
        destruct (Z.ltb_spec y 0), (Z.ltb_spec (y + n) 0), (Z.leb_spec n y); lia. }
      assert (Hb : (b0 = b1 \/ (b0 <= 0 /\ b1 <= 0) \/ (n <= b0 /\ n <= b1))%Z).
      { unfold b0, b1, slice_bound, from_end. destruct stop as [y|]; [|auto].
        destruct (Z.ltb_spec y 0), (Z.ltb_spec (y + n) 0), (Z.leb_spec n y); lia. }
      assert (Hc : (0 <= a1 /\ b1 <= n)%Z).
      { unfold a1, b1, slice_bound. destruct start as [y|], stop as [z|];
          repeat match goal with |- context [(?a <? ?b)%Z] => destruct (Z.ltb_spec a b) | |- context [(?a <=? ?b)%Z] => destruct (Z.leb_spec a b) end; lia. }
      destruct Ha as [->|Ha]; [|lia]. assert (forall P : Prop, ((a1 <= x < b1)%Z /\ P) <-> (((0 <= x < n)%Z /\ ((a1 <= x)%Z /\ (x < b0)%Z) /\ P))); [|auto].
      intros P. destruct Hb as [->|Hb]; intuition lia.
Qed.

(** ** Any history of calls *)
Inductive used (text : str) : mdp -> Prop :=
| U_open p : md_open text = Ok p -> used text p
| U_frame p z : used text p -> used text (snd (get_frame p z))
| U_next p : used text p -> used text (snd (read_next p))
| U_list p zs : used text p -> used text (snd (get_frames p zs))
| U_slice p a b st : used text p -> used text (snd (get_slice p a b st))
| U_gen p g sent : used text p -> used text (snd (fst (gen_next p g sent))).
Lemma used_inv text hdr c blocks k fb p : lazy_file text hdr c blocks k fb -> used text p -> inv text hdr blocks k fb p.
Proof.
  intros F U. pose proof F as (L & _ & He & _). apply lines_of_unique in L.
  destruct (md_open_ok _ _ _ _ _ _ F) as (p0 & E0 & I0 & _). induction U as [p E| | | | |].
  - rewrite E0 in E. injection E as <-. exact I0.
  - now apply get_frame_inv.
  - now apply read_next_inv.
  - now apply get_frames_inv.
  - now apply get_slice_inv.
  - now apply gen_next_inv.
Qed.

Lemma at_index_nat {A} (l : list A) i : at_index l (Z.of_nat i) = nth_error l i.
Proof.
  unfold at_index, from_end. destruct (Z.ltb_spec (Z.of_nat i) 0); [lia|]. destruct (Z.ltb_spec (Z.of_nat i) 0); [lia|]. now rewrite Nat2Z.id.
Qed.
Theorem lazy_access text hdr c blocks k fb : lazy_file text hdr c blocks k fb ->
  (exists p, md_open text = Ok p) /\
  forall p, used text p ->
    p_len p = length blocks /\
    (forall z, fst (get_frame p z) = frame_at blocks z) /\
    (forall zs, fst (get_frames p zs) = mapM (frame_at blocks) zs) /\
    (forall a b st, fst (get_slice p a b (Some st)) =
       if (st =? 0)%Z then Err ValueError else mapM (frame_at blocks) (indices (Z.of_nat (length blocks)) a b st)) /\
    (forall a b, fst (get_slice p a b None) = mapM (frame_at blocks) (indices (Z.of_nat (length blocks)) a b 1)) /\
    match p_next p with
    | Some i => (0 <= i < Z.of_nat (length blocks))%Z /\ fst (read_next p) = frame_at blocks i
    | None => fst (read_next p) = Err StopIteration
    end.
Proof.
  intros F. split; [destruct (md_open_ok _ _ _ _ _ _ F) as (p & E & _); eauto|]. intros p U.
  pose proof (used_inv _ _ _ _ _ _ _ F U) as I. pose proof F as (L & _ & He & _). apply lines_of_unique in L.
  pose proof I as (_ & _ & _ & _ & Ln & Nx).
  assert (Sl : forall a b st, fst (get_slice p a b st) = if (match st with Some k => k | None => 1 end =? 0)%Z then Err ValueError
    else mapM (frame_at blocks) (indices (Z.of_nat (length blocks)) a b (match st with Some k => k | None => 1 end)%Z)).
  { intros a b st. unfold get_slice. rewrite Ln. pose proof (slice_ok (Z.of_nat (length blocks)) a b st ltac:(lia)) as S.
    destruct (slice_indices _ a b st) as [[[x y] z]|e].
    - destruct S as (<- & Hz & Er). destruct (Z.eqb_spec z 0); [contradiction|]. rewrite Er. now apply (get_frames_inv text hdr blocks k fb).
    - destruct S as [-> ->]. reflexivity. }
  split; [exact Ln|]. split; [intros z; now apply (get_frame_inv text hdr blocks k fb)|].
  split; [intros zs; now apply (get_frames_inv text hdr blocks k fb)|]. split; [intros; apply Sl|]. split; [intros; apply (Sl a b None)|].
  destruct (read_next_inv text hdr blocks k fb L He p I) as [_ R]. destruct (p_next p) as [i|]; [|now destruct R].
  destruct Nx as [Hi _]. split; [exact Hi|]. destruct R as [-> _]. unfold frame_nr, frame_at.
  replace i with (Z.of_nat (Z.to_nat i)) at 2 by lia. now rewrite at_index_nat.
Qed.
(** What [next_frame] is after each kind of call. *)
Theorem lazy_next text hdr c blocks k fb p : lazy_file text hdr c blocks k fb -> used text p ->
  let n := Z.of_nat (length blocks) in
  let after i := if (i + 1 <? n)%Z then Some (i + 1)%Z else None in
  (md_open text = Ok p -> p_next p = Some 0%Z) /\
  (forall z, (- n <= z < n)%Z -> p_next (snd (get_frame p z)) = after (from_end n z)) /\
  (forall z, ~ (- n <= z < n)%Z -> snd (get_frame p z) = p) /\
  (p_next (snd (read_next p)) = match p_next p with Some i => after i | None => None end).
Proof.
  intros F U n after. pose proof (used_inv _ _ _ _ _ _ _ F U) as I. pose proof F as (L & _ & He & _). apply lines_of_unique in L.
  split; [|split; [|split]].
  - intros E. destruct (md_open_ok _ _ _ _ _ _ F) as (p0 & E0 & _ & N0). congruence.
  - intros z Hz. destruct (get_frame_inv text hdr blocks k fb L He p z I) as (_ & _ & G). apply G; [reflexivity|].
    fold n. unfold from_end. destruct (Z.ltb_spec z 0); lia.
  - intros z Hz. destruct I as (_ & _ & _ & _ & Ln & _). unfold get_frame. rewrite Ln. fold n.
    destruct (Z.leb_spec (- n) z), (Z.ltb_spec z n); try reflexivity. lia.
  - destruct (read_next_inv text hdr blocks k fb L He p I) as [_ R]. destruct (p_next p); now destruct R.
Qed.

(** ** The generator *)
Theorem lazy_iter text hdr c blocks k fb p g sent j : lazy_file text hdr c blocks k fb -> used text p ->
  (g = GNew /\ sent = None /\ j = 0%Z \/ exists i, g = GAt i /\ j = match sent with Some t => t | None => (i + 1)%Z end) ->
  let '(r, p', g') := gen_next p g sent in
  if (Z.of_nat (length blocks) <=? j)%Z then r = Err StopIteration /\ g' = GDone
  else match frame_at blocks j with
       | Ok v => r = Ok v /\ g' = GAt j
       | Err e => r = Err (match e with StopIteration => RuntimeError | e => e end) /\ g' = GDone
       end.
Proof.
  intros F U Hj. pose proof (used_inv _ _ _ _ _ _ _ F U) as I. pose proof F as (L & _ & He & _). apply lines_of_unique in L.
  pose proof I as (_ & _ & _ & _ & Ln & _).
  assert (G : gen_next p g sent = if (j <? Z.of_nat (p_len p))%Z then
      match get_frame p j with
      | (Ok v, p') => (Ok v, p', GAt j)
      | (Err e, p') => (Err (match e with StopIteration => RuntimeError | e => e end), p', GDone)
      end else (Err StopIteration, p, GDone)).
  { destruct Hj as [(-> & -> & ->)|(i & -> & ->)]; reflexivity. }
  rewrite G, Ln. destruct (Z.leb_spec (Z.of_nat (length blocks)) j), (Z.ltb_spec j (Z.of_nat (length blocks))); try lia; [auto|].
  destruct (get_frame_inv text hdr blocks k fb L He p j I) as (_ & E & _). destruct (get_frame p j) as [[v|e] p']; cbn in E; rewrite <- E; auto.
Qed.
(** [for frame in parser]: the values delivered and what ended the loop *)
Fixpoint drain (fuel : nat) (p : mdp) (g : gen) : list pyval * option exn :=
  match fuel with
  | O => ([], None)
  | S fuel' => match gen_next p g None with
               | (Ok v, p', g') => let (vs, e) := drain fuel' p' g' in (v :: vs, e)
               | (Err e, _, _) => ([], Some e)
               end
  end.
Lemma mapM_nth {A B} (f : A -> result B) : forall l vs i a, mapM f l = Ok vs -> nth_error l i = Some a -> exists v, f a = Ok v /\ nth_error vs i = Some v.
Proof.
  induction l as [|x l IH]; intros vs i a E H; [destruct i; discriminate|]. cbn [mapM] in E. destruct (f x) as [v|] eqn:Ef; [|discriminate].
  cbn in E. destruct (mapM f l) as [ws|] eqn:Em; [|discriminate]. injection E as <-. destruct i as [|i]; cbn in *.
  - injection H as <-. eauto.
  - eauto.
Qed.
Lemma mapM_length {A B} (f : A -> result B) : forall l vs, mapM f l = Ok vs -> length vs = length l.
Proof.
  induction l as [|x l IH]; intros vs E; cbn [mapM] in E; [now injection E as <-|]. destruct (f x); [|discriminate]. cbn in E.
  destruct (mapM f l); [|discriminate]. injection E as <-. cbn. now rewrite (IH _ eq_refl).
Qed.
Theorem lazy_for text hdr c blocks k fb p vs fuel : lazy_file text hdr c blocks k fb -> used text p ->
  mapM parse_md_geom_frame (map fst blocks) = Ok vs -> length blocks < fuel -> drain fuel p GNew = (vs, Some StopIteration).
Proof.
  intros F U Ev Hf.
  pose proof (mapM_length _ _ _ Ev) as Lv. rewrite map_length in Lv.
  assert (G : forall m i fuel p g, used text p -> (g = GNew /\ i = 0 \/ exists z, g = GAt z /\ Z.of_nat i = (z + 1)%Z) ->
    i + m = length blocks -> m < fuel -> drain fuel p g = (skipn i vs, Some StopIteration)).
  { induction m as [|m IH]; intros i fu q g Uq Hg Hm Hfu; (destruct fu as [|fu]; [lia|]); cbn [drain];
      pose proof (lazy_iter _ _ _ _ _ _ q g None (Z.of_nat i) F Uq) as S; pose proof (U_gen _ _ g None Uq) as U';
      destruct (gen_next q g None) as [[r q'] g']; cbn [fst snd] in U'.
    - destruct (Z.leb_spec (Z.of_nat (length blocks)) (Z.of_nat i)) as [_|]; [|lia].
      destruct S as [-> _]; [destruct Hg as [[-> ->]|(z & -> & Hz)]; eauto|]. now rewrite skipn_all2 by lia.
    - destruct (Z.leb_spec (Z.of_nat (length blocks)) (Z.of_nat i)) as [|_]; [lia|].
      unfold frame_at in S. rewrite at_index_nat in S. destruct (nth_error blocks i) as [b|] eqn:Eb; [|apply nth_error_None in Eb; lia].
      destruct (mapM_nth _ _ _ i (fst b) Ev) as (v & Pv & Nv); [now apply map_nth_error|]. rewrite Pv in S.
      destruct S as [-> ->]; [destruct Hg as [[-> ->]|(z & -> & Hz)]; eauto|].
      rewrite (IH (S i) fu q' (GAt (Z.of_nat i)) U'); [|right; exists (Z.of_nat i); split; [reflexivity|lia]|lia|lia].
      now rewrite (skipn_nth _ _ _ Nv). }
  rewrite (G (length blocks) 0 fuel p GNew U); auto.
Qed.

(** ** Lazy and eager *)
Lemma framed_body frames : Forall frame_start frames -> Forall unbroken frames -> md_body frames (framed frames).
Proof.
  induction frames as [|fr frs IH]; intros Hf Hu; [apply mb_end; constructor|]. inversion Hf; inversion Hu; subst.
  unfold framed, laid_out. cbn [map concat fst snd]. rewrite <- app_assoc. cbn [app]. apply mb_cons; auto.
Qed.
Lemma mapM_index {A B} (f : A -> result B) (g : Z -> result B) : forall l s,
  (forall i a, nth_error l i = Some a -> g (Z.of_nat (s + i)) = f a) -> mapM g (map Z.of_nat (seq s (length l))) = mapM f l.
Proof.
  induction l as [|a l IH]; intros s H; [reflexivity|]. cbn [length seq map mapM]. pose proof (H 0 a eq_refl) as H0. rewrite Nat.add_0_r in H0.
  rewrite H0, (IH (S s)); [reflexivity|]. intros i b Hi. rewrite <- (H (S i) b Hi). f_equal. lia.
Qed.
Lemma filter_all {A} (f : A -> bool) l : (forall x, In x l -> f x = true) -> filter f l = l.
Proof. induction l as [|a l IH]; intros H; [reflexivity|]. cbn. rewrite (H a (or_introl eq_refl)), IH; [reflexivity|]. intros. apply H. now right. Qed.
Theorem lazy_eager text hdr c frames k fb p : lazy_file text hdr c (map (fun fr => (fr, empty_line)) frames) k fb ->
  Forall frame_start frames -> Forall unbroken frames -> used text p ->
  rmap VList (fst (get_slice p None None None)) = parse_md_geom_file (SFile (fw_open text)) /\
  forall vs, parse_md_geom_file (SFile (fw_open text)) = Ok (VList vs) ->
    p_len p = length vs /\ forall z, fst (get_frame p z) = match at_index vs z with Some v => Ok v | None => Err IndexError end.
Proof.
  intros F Hf Hu U. set (blocks := map (fun fr => (fr, empty_line)) frames) in *.
  pose proof F as (L & Hh & _ & H1). pose proof (lines_of_unique _ _ L) as L'.
  destruct (md_file (SFile (fw_open text)) hdr c frames (framed frames)) as [E _]; [constructor|now apply delivers_file|exact Hh|now apply framed_body| |].
  { intros ->. destruct H1 as (? & ? & ? & H1 & _). discriminate. }
  destruct (proj2 (lazy_access _ _ _ _ _ _ F) p U) as (Ln & Gf & _ & _ & Gs & _).
  assert (Lb : length blocks = length frames) by (unfold blocks; apply map_length).
  assert (Nb : forall i, nth_error blocks i = option_map (fun fr => (fr, empty_line)) (nth_error frames i)) by (intros; unfold blocks; apply nth_error_map).
  split.
  - rewrite E, Gs. f_equal. assert (I : indices (Z.of_nat (length blocks)) None None 1 = map Z.of_nat (seq 0 (length frames))).
    { unfold indices. cbn. rewrite Nat2Z.id, Lb.
      apply filter_all. intros x Hx. apply in_map_iff in Hx as (i & <- & Hi). apply in_seq in Hi. rewrite !andb_true_iff, Z.leb_le, Z.ltb_lt, Z.eqb_eq.
      repeat split; try lia. }
    rewrite I. apply mapM_index. intros i fr Hi. unfold frame_at. rewrite at_index_nat. cbn [Nat.add]. now rewrite Nb, Hi.
  - intros vs Ev. rewrite E in Ev. destruct (mapM parse_md_geom_frame frames) as [ws|] eqn:Em; [|discriminate]. cbn in Ev. injection Ev as <-.
    pose proof (mapM_length _ _ _ Em) as Lw. split; [congruence|]. intros z. rewrite Gf. unfold frame_at, at_index. rewrite Lw, Lb.
    destruct (_ <? 0)%Z; [reflexivity|]. rewrite Nb. destruct (nth_error frames _) as [fr|] eqn:En; cbn [option_map fst].
    + destruct (mapM_nth _ _ _ _ _ Em En) as (v & -> & ->). reflexivity.
    + apply nth_error_None in En. rewrite (proj2 (nth_error_None ws _)); [reflexivity|lia].
Qed.
(** The last frame without its blank line is not counted. *)
Theorem lazy_short text hdr c blocks last k fb : lines_of (hdr ++ laid_out blocks ++ last) text -> md_header hdr c -> even k fb blocks ->
  (exists fr sep more, blocks = (fr, sep) :: more /\ frame_start fr /\ Forall (fun l => ~ blanks l) fr) ->
  length (concat last) < fb ->
  exists p, md_open text = Ok p /\ p_len p = length blocks /\ fst (get_frame p (Z.of_nat (length blocks))) = Err IndexError.
Proof.
  intros L Hh He H1 Hx. apply lines_of_unique in L. destruct (md_open_any text hdr c blocks last k fb) as (p & Ep & _ & _ & _ & _ & Ln & _); auto.
  exists p. split; [exact Ep|]. split; [exact Ln|]. unfold get_frame. rewrite Ln, Z.ltb_irrefl, andb_false_r. reflexivity.
Qed.
