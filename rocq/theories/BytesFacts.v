From Verif Require Import PyBase PyFacts PyVal Bytes SpecBytes.
Local Open Scope list_scope.
Local Open Scope nat_scope.

Lemma items_concat {A} sz (dec : list ascii -> A) l : Forall (fun x => length x = sz) l ->
  items (length l) sz dec (concat l) = map dec l.
Proof.
  induction 1 as [|x l Hx _ IH]; [reflexivity|]. cbn [length items concat map].
  rewrite firstn_app, skipn_app, <- Hx, Nat.sub_diag, firstn_all, skipn_all.
  cbn. rewrite app_nil_r, Hx, IH. reflexivity.
Qed.
Lemma concat_len {A} sz (l : list (list A)) : Forall (fun x => length x = sz) l -> length (concat l) = length l * sz.
Proof. induction 1 as [|x l Hx _ IH]; [reflexivity|]. cbn. rewrite app_length, Hx, IH. reflexivity. Qed.

Lemma unpack_concat {A} sz (dec : list ascii -> A) l : sz <> 0 -> Forall (fun x => length x = sz) l ->
  unpack sz dec (concat l) = Ok (map dec l).
Proof.
  intros Hz H. unfold unpack. rewrite (concat_len sz l H), Nat.div_mul, Nat.eqb_refl by exact Hz.
  now rewrite items_concat.
Qed.

(** Every byte string of the right length is such a concatenation. *)
Lemma unpack_iff {A} sz (dec : list ascii -> A) b : sz <> 0 ->
  (length b mod sz = 0 /\ exists l, b = concat l /\ Forall (fun x => length x = sz) l /\ length b = length l * sz /\ unpack sz dec b = Ok (map dec l))
  \/ (length b mod sz <> 0 /\ unpack sz dec b = Err StructError).
Proof.
  intros Hz. pose proof (Nat.div_mod (length b) sz Hz) as E.
  destruct (Nat.eq_dec (length b mod sz) 0) as [H|H].
  - left. split; [exact H|].
    assert (G : forall n (b : list ascii), length b = n * sz -> exists l, b = concat l /\ Forall (fun x => length x = sz) l /\ length l = n).
    { clear. induction n as [|n IH]; intros b Hb.
      - destruct b; [|cbn in Hb; lia]. exists []. auto.
      - cbn in Hb. destruct (IH (skipn sz b)) as (l & E & F & L); [rewrite skipn_length; lia|].
        exists (firstn sz b :: l). cbn. rewrite <- E, firstn_skipn. repeat split; auto.
        constructor; [rewrite firstn_length; lia|exact F]. }
    destruct (G (length b / sz) b) as (l & El & F & L); [lia|].
    exists l. split; [exact El|]. split; [exact F|]. split; [rewrite L; lia|].
    rewrite El. now apply unpack_concat.
  - right. split; [exact H|]. unfold unpack. destruct (Nat.eqb_spec (length b) (length b / sz * sz)); [|reflexivity].
    exfalso. lia.
Qed.

Lemma enc_int_len z : length (enc_int z) = 4.
Proof. reflexivity. Qed.

Lemma ord_byte k z : (0 <= k)%Z -> Z.of_N (ord (byte k z)) = ((z / 256 ^ k) mod 256)%Z.
Proof.
  intros Hk. unfold byte, ord. rewrite N_ascii_embedding.
  - rewrite Z2N.id; [reflexivity|]. apply Z.mod_pos_bound. lia.
  - pose proof (Z.mod_pos_bound (z / 256 ^ k) 256). lia.
Qed.

Lemma dec_enc_int z : int32 z -> be_int32 (enc_int z) = z.
Proof.
  unfold int32. change (2 ^ 31)%Z with 2147483648%Z. intros H.
  unfold be_int32, be_uint, enc_int. cbn [fold_left]. rewrite !ord_byte by lia.
  change (2 ^ 31)%Z with 2147483648%Z. change (2 ^ 32)%Z with 4294967296%Z.
  change (256 ^ 3)%Z with 16777216%Z. change (256 ^ 2)%Z with 65536%Z. change (256 ^ 1)%Z with 256%Z.
  change (256 ^ 0)%Z with 1%Z. rewrite Z.div_1_r.
  set (u := ((((0 * 256 + _) * 256 + _) * 256 + _) * 256 + _)%Z).
  assert (U : u = (z mod 4294967296)%Z).
  { unfold u. clear u.
    replace 16777216%Z with (256 * 65536)%Z by lia. replace 65536%Z with (256 * 256)%Z by lia.
    rewrite <- !Z.div_div by lia.
    replace 4294967296%Z with (256 * (256 * (256 * 256)))%Z by lia.
    rewrite !Z.rem_mul_r by lia. ring. }
  clearbody u. subst u.
  destruct (Z.ltb_spec (z mod 4294967296) 2147483648).
  - rewrite Z.mod_eq in * by lia. assert (D : (z / 4294967296 = 0 \/ z / 4294967296 = -1)%Z); [|lia].
    pose proof (Z.div_lt_upper_bound z 4294967296 1). pose proof (Z.div_le_lower_bound z 4294967296 (-1)). lia.
  - rewrite Z.mod_eq in * by lia. assert (D : (z / 4294967296 = 0 \/ z / 4294967296 = -1)%Z); [|lia].
    pose proof (Z.div_lt_upper_bound z 4294967296 1). pose proof (Z.div_le_lower_bound z 4294967296 (-1)). lia.
Qed.

Lemma enc_all {A} (f : A -> list ascii) sz l : (forall a, length (f a) = sz) -> Forall (fun x => length x = sz) (map f l).
Proof. intros H. apply Forall_forall. intros x Hx. apply in_map_iff in Hx as (a & <- & _). apply H. Qed.

Theorem ints_roundtrip zs : Forall int32 zs ->
  parse_bytes (concat (map enc_int zs)) (Array BInt) = Ok (VTuple (map VInt zs)).
Proof.
  intros H. cbn. unfold parse_int_bytes.
  rewrite unpack_concat; [|lia|apply enc_all, enc_int_len]. cbn [rmap]. do 2 f_equal. rewrite map_map.
  apply map_ext_in. intros z Hz. rewrite Forall_forall in H. f_equal. apply dec_enc_int; auto.
Qed.
Theorem bools_roundtrip zs : Forall int32 zs ->
  parse_bytes (concat (map enc_int zs)) (Array BBool) = Ok (VTuple (map (fun z => VBool (negb (z =? 0)%Z)) zs)).
Proof.
  intros H. cbn. unfold parse_bool_bytes.
  rewrite unpack_concat; [|lia|apply enc_all, enc_int_len]. cbn [rmap]. do 2 f_equal. rewrite map_map.
  apply map_ext_in. intros z Hz. rewrite Forall_forall in H. rewrite dec_enc_int; auto.
Qed.
Theorem logicals_roundtrip bs :
  parse_bytes (concat (map enc_bool bs)) (Array BBool) = Ok (VTuple (map VBool bs)).
Proof.
  unfold enc_bool. rewrite <- (map_map (fun b : bool => if b then 1 else 0)%Z enc_int).
  rewrite bools_roundtrip.
  - rewrite map_map. do 2 f_equal. apply map_ext. intros []; reflexivity.
  - apply Forall_forall. intros z Hz. apply in_map_iff in Hz as ([] & <- & _); split; reflexivity || discriminate.
Qed.
Theorem floats_roundtrip ds : Forall double ds ->
  parse_bytes (concat ds) (Array BFloat) = Ok (VTuple (map (fun d => VFloat (FBits d)) ds)).
Proof. intros H. cbn. unfold parse_float_bytes. rewrite unpack_concat; [reflexivity|lia|exact H]. Qed.

Lemma pair_up_pairs ps :
  pair_up (concat (map (fun p => [fst p; snd p]) ps)) = map (fun p => VComplex (FBits (fst p)) (FBits (snd p))) ps.
Proof. induction ps as [|p ps IH]; [reflexivity|]. cbn. now rewrite IH. Qed.

Lemma complex_roundtrip_raw ps : Forall (fun p => double (fst p) /\ double (snd p)) ps ->
  parse_complex_bytes (concat (map (fun p => fst p ++ snd p) ps)) =
  Ok (map (fun p => VComplex (FBits (fst p)) (FBits (snd p))) ps).
Proof.
  intros H. unfold parse_complex_bytes.
  replace (concat (map (fun p => fst p ++ snd p) ps)) with (concat (concat (map (fun p => [fst p; snd p]) ps))).
  - rewrite unpack_concat; [|lia|].
    + cbn [rmap]. f_equal. rewrite map_id. apply pair_up_pairs.
    + induction H as [|p ps [Ha Hb] _ IH]; [constructor|]. cbn. constructor; [exact Ha|]. constructor; [exact Hb|exact IH].
  - clear H. induction ps as [|p ps IH]; [reflexivity|]. cbn. now rewrite IH, app_assoc.
Qed.
Theorem complex_roundtrip ps : Forall (fun p => double (fst p) /\ double (snd p)) ps ->
  parse_bytes (concat (map (fun p => fst p ++ snd p) ps)) (Array BComplex) =
  Ok (VTuple (map (fun p => VComplex (FBits (fst p)) (FBits (snd p))) ps)).
Proof. intros H. cbn. now rewrite complex_roundtrip_raw. Qed.

Lemma ascii_text_iff s : ascii_text s <-> forallb (fun c => (ord c <? 128)%N) s = true.
Proof.
  unfold ascii_text. rewrite Forall_forall, forallb_forall.
  split; intros H c Hc; apply N.ltb_lt, H, Hc.
Qed.
Theorem str_roundtrip s : ascii_text s ->
  parse_bytes s (Scalar BStr) = Ok (VStr s) /\ parse_bytes s (Array BStr) = Ok (VTuple [VStr s]).
Proof. intros H. apply ascii_text_iff in H. cbn. unfold parse_str_bytes. rewrite H. auto. Qed.

Theorem scalar_int z : int32 z -> parse_bytes (enc_int z) (Scalar BInt) = Ok (VInt z).
Proof.
  intros H. pose proof (ints_roundtrip [z] (Forall_cons _ H (Forall_nil _))) as E.
  cbn [map concat] in E. rewrite app_nil_r in E. unfold parse_bytes in *.
  destruct (byte_parser BInt (enc_int z)); [|discriminate]. cbn in E. injection E as ->. reflexivity.
Qed.
Theorem scalar_bool b : parse_bytes (enc_bool b) (Scalar BBool) = Ok (VBool b).
Proof. now destruct b. Qed.
Theorem scalar_float d : double d -> parse_bytes d (Scalar BFloat) = Ok (VFloat (FBits d)).
Proof.
  intros H. pose proof (floats_roundtrip [d] (Forall_cons _ H (Forall_nil _))) as E.
  cbn [map concat] in E. rewrite app_nil_r in E. unfold parse_bytes in *.
  destruct (byte_parser BFloat d); [|discriminate]. cbn in E. injection E as ->. reflexivity.
Qed.
Theorem scalar_complex a b : double a -> double b -> parse_bytes (a ++ b) (Scalar BComplex) = Ok (VComplex (FBits a) (FBits b)).
Proof.
  intros Ha Hb. pose proof (complex_roundtrip [(a, b)] (Forall_cons (a, b) (conj Ha Hb) (Forall_nil _))) as E.
  cbn [map concat fst snd] in E. rewrite app_nil_r in E. unfold parse_bytes in *.
  destruct (byte_parser BComplex (a ++ b)); [|discriminate]. cbn in E. injection E as ->. reflexivity.
Qed.

(** ** Malformed records *)
Definition size (t : btype) : option nat :=
  match t with BFloat => Some 8 | BInt | BBool => Some 4 | _ => None end.

Lemma parser_sized t sz b : size t = Some sz ->
  (length b mod sz = 0 /\ exists l, byte_parser t b = Ok l /\ length b = length l * sz) \/
  (length b mod sz <> 0 /\ byte_parser t b = Err StructError).
Proof.
  intros H. destruct t; try discriminate; injection H as <-; cbn [byte_parser];
    unfold parse_float_bytes, parse_bool_bytes, parse_int_bytes.
  1: destruct (unpack_iff 8 (fun x => VFloat (FBits x)) b ltac:(lia)) as [(H & l & _ & _ & L & E)|H]; [left|right; exact H].
  2: destruct (unpack_iff 4 (fun x => VBool (negb (be_int32 x =? 0)%Z)) b ltac:(lia)) as [(H & l & _ & _ & L & E)|H]; [left|right; exact H].
  3: destruct (unpack_iff 4 (fun x => VInt (be_int32 x)) b ltac:(lia)) as [(H & l & _ & _ & L & E)|H]; [left|right; exact H].
  all: split; [exact H|]; rewrite E; eexists; split; [reflexivity|]; rewrite map_length; exact L.
Qed.

Theorem array_accepts t sz b : size t = Some sz ->
  ((exists v, parse_bytes b (Array t) = Ok v) <-> length b mod sz = 0) /\
  (length b mod sz <> 0 -> parse_bytes b (Array t) = Err StructError) /\
  (forall l, parse_bytes b (Array t) = Ok (VTuple l) -> length b = length l * sz).
Proof.
  intros H. cbn [parse_bytes]. destruct (parser_sized t sz b H) as [(Hm & l & E & L)|[Hm E]]; rewrite E; cbn.
  - repeat split; eauto; try contradiction. intros l' E'. injection E' as <-. exact L.
  - repeat split; auto; try contradiction; try discriminate. intros [v Hv]; discriminate.
Qed.

Theorem scalar_accepts t sz b : size t = Some sz ->
  ((exists v, parse_bytes b (Scalar t) = Ok v) <-> length b = sz).
Proof.
  intros H. cbn [parse_bytes]. destruct (parser_sized t sz b H) as [(Hm & l & E & L)|[Hm E]]; rewrite E; cbn.
  - destruct l as [|x [|y l]]; cbn in *.
    + assert (sz <> 0) by (destruct t; cbn in H; inversion H; lia). split; [intros [v Hv]; discriminate|lia].
    + split; [lia|eauto].
    + assert (sz <> 0) by (destruct t; cbn in H; inversion H; lia). split; [intros [v Hv]; discriminate|nia].
  - split; [intros [v Hv]; discriminate|]. intros Hb. exfalso. apply Hm. rewrite Hb. apply Nat.mod_same.
    destruct t; cbn in H; inversion H; lia.
Qed.

Theorem str_rejects b : ~ ascii_text b ->
  parse_bytes b (Scalar BStr) = Err UnicodeDecodeError /\ parse_bytes b (Array BStr) = Err UnicodeDecodeError.
Proof.
  intros H. cbn. unfold parse_str_bytes.
  destruct (forallb _ b) eqn:E; [apply ascii_text_iff in E; contradiction|]. auto.
Qed.

Lemma pair_up_len l : length (pair_up l) = length l / 2.
Proof.
  assert (G : forall n l, length l <= n -> length (pair_up l) = length l / 2).
  { induction n as [|n IH]; intros [|a [|b l']] H; cbn [length] in H; try reflexivity; try lia.
    cbn [pair_up length]. rewrite IH by lia.
    replace (S (S (length l'))) with (length l' + 1 * 2) by lia. rewrite Nat.div_add by lia. lia. }
  apply (G (length l)); lia.
Qed.

(** Complex records: multiples of 8 bytes are accepted, an odd double is dropped. *)
Theorem complex_accepts b :
  ((exists v, parse_bytes b (Array BComplex) = Ok v) <-> length b mod 8 = 0) /\
  (forall l, parse_bytes b (Array BComplex) = Ok (VTuple l) -> length l = length b / 16).
Proof.
  cbn [parse_bytes byte_parser]. unfold parse_complex_bytes.
  destruct (unpack_iff 8 (fun x => x) b ltac:(lia)) as [(H & l & _ & _ & L & E)|[H E]]; rewrite E; cbn [rmap].
  - split; [split; eauto|]. intros l' E'. injection E' as <-. rewrite pair_up_len, map_length.
    rewrite L. replace 16 with (8 * 2) by lia. rewrite <- Nat.div_div by lia. rewrite Nat.div_mul by lia. reflexivity.
  - split; [split; [intros [v Hv]; discriminate|contradiction]|discriminate].
Qed.
