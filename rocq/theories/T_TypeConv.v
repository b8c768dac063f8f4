(** Property theorems C12-C17: type detection and conversion. *)
From Verif Require Import PyBase NumSpec SpecLine SpecType PyVal TypeConv NumProps TypeConvFacts Bytes SpecBytes BytesFacts.
Local Open Scope list_scope.
Local Open Scope nat_scope.

(** C12.  The full claim, "the detected type always accepts the value", is false. *)
Theorem C12_detected_refuted :
  to_type (determine_type ($"-1/3")) (VStr ($"-1/3")) = Err ValueError /\
  to_type (determine_type ($"1x")) (VStr ($"1x")) = Err ValueError /\
  to_type (determine_type ($"0 0.25 0")) (VStr ($"0 0.25 0")) = Err ValueError.
Proof. vm_compute. auto. Qed.
Print Assumptions C12_detected_refuted.

(** Which type is detected, exactly: only the beginning of the text matters
    ([w] are the leading blanks). *)
Theorem C12_determine_type w t : blanks w -> (forall c r, t = c :: r -> ~ blank c) ->
  (determine_type (w ++ t) = TBool <-> is_logical (w ++ t)) /\
  (determine_type (w ++ t) = TFloat <-> float_prefix t \/ ratio_prefix t) /\
  (determine_type (w ++ t) = TInt <-> int_prefix t /\ ~ float_prefix t /\ ~ ratio_prefix t) /\
  (determine_type (w ++ t) = TStr <-> ~ is_logical (w ++ t) /\ ~ int_prefix t /\ ~ float_prefix t).
Proof. exact (determine_exact w t). Qed.
Print Assumptions C12_determine_type.

(** The claim holds for a single number... *)
Theorem C12_detected_number_partial a n b : blanks a -> blanks b -> num_wf n -> fits (num_value n) ->
  exists v, to_type (determine_type (a ++ write_num n ++ b)) (VStr (a ++ write_num n ++ b)) = Ok v /\
    v = match n_frac n, n_exp n with
        | None, None => VInt (int_value n)
        | _, _ => VFloat (FQ (Qred (num_value n)))
        end.
Proof. exact (detected_num a n b). Qed.
Print Assumptions C12_detected_number_partial.
(** ...for an unsigned ratio... *)
Theorem C12_detected_ratio_partial a r b : blanks a -> blanks b -> ratio_ok r -> r_sign r = NoSign ->
  decimal (r_den r) <> 0%Z -> fits (ratio_value r) ->
  to_type (determine_type (a ++ write_ratio r ++ b)) (VStr (a ++ write_ratio r ++ b)) =
  Ok (VFloat (FQ (Qred (ratio_value r)))).
Proof. exact (detected_ratio a r b). Qed.
Print Assumptions C12_detected_ratio_partial.
(** ...and for text not starting with a number. *)
Theorem C12_detected_text_partial w t : blanks w -> (forall c r, t = c :: r -> ~ blank c) ->
  ~ int_prefix t -> ~ float_prefix t ->
  exists v, to_type (determine_type (w ++ t)) (VStr (w ++ t)) = Ok v /\
    (is_logical (w ++ t) -> exists b, v = VBool b) /\ (~ is_logical (w ++ t) -> v = VStr (w ++ t)).
Proof. exact (detected_text w t). Qed.
Print Assumptions C12_detected_text_partial.

Example C12_ex : map determine_type [$" 1.5"; $"7"; $"1/3"; $"TRUE"; $"fine"; $"-1/3"; $"2e5 bohr"] =
  [TFloat; TInt; TFloat; TBool; TStr; TInt; TFloat].
Proof. vm_compute. reflexivity. Qed.

(** C13.  Conversion of a nested value is conversion of its string leaves. *)
Theorem C13_to_type t v v' : to_type t v = Ok v' <-> converted t v v'.
Proof. exact (to_type_iff t v v'). Qed.
Print Assumptions C13_to_type.
(** It fails exactly when a leaf cannot be read, with the exception of a leaf. *)
Theorem C13_to_type_fails t v : (exists e, to_type t v = Err e) <-> exists s, leaf s v /\ ~ exists w, reads t s w.
Proof. exact (to_type_fails t v). Qed.
Print Assumptions C13_to_type_fails.
Theorem C13_to_type_exception t v e : to_type t v = Err e -> exists s, leaf s v /\ to_type t (VStr s) = Err e.
Proof. exact (to_type_err t v e). Qed.
Print Assumptions C13_to_type_exception.

Example C13_ex : to_type TInt (VDict false [(KStr ($"a"), VList [VStr ($"1"); VNone]); (KInt 3, VTuple [VStr ($"-2")])])
  = Ok (VDict false [(KStr ($"a"), VTuple [VInt 1; VNone]); (KInt 3, VTuple [VInt (-2)])]).
Proof. vm_compute. reflexivity. Qed.

(** C14.  Logicals, ignoring case. *)
Theorem C14_logical s b : to_type TBool (VStr s) = Ok (VBool b) <-> (b = true <-> is_true_word s).
Proof.
  pose proof (parse_logical_iff s) as H. cbn [to_type parse_text]. destruct (parse_logical s), b;
    split; try (intros E; injection E; congruence); try tauto; intuition congruence.
Qed.
Print Assumptions C14_logical.
Theorem C14_determine_logical s : determine_type s = TBool <-> is_logical s.
Proof.
  destruct (split_blanks s) as (w & t & -> & Hw & Ht). apply determine_exact.
  - now apply blanks_iff.
  - intros c r -> B. apply blank_iff in B. cbn in Ht. congruence.
Qed.
Print Assumptions C14_determine_logical.
Example C14_ex : is_true_word ($"tRuE") /\ ~ is_true_word ($"yes") /\ is_logical ($"FALSE").
Proof.
  split; [|split].
  - exists "true"%string. cbn. auto.
  - intros (w & Hw & E). cbn in Hw. intuition (subst; discriminate).
  - exists "false"%string. cbn. auto 6.
Qed.

(** C15.  parse_int_or_float, exactly: integers iff every token is an unsigned
    integer literal... *)
Theorem C15_int_or_float l : Forall num_wf l -> Forall (fun n => fits (num_value n)) l ->
  (Forall (fun n => n_sign n = NoSign /\ is_int n) l ->
     parse_int_or_float_seq (map write_num l) = Ok (VTuple (map (fun n => VInt (int_value n)) l))) /\
  (~ Forall (fun n => n_sign n = NoSign /\ is_int n) l ->
     parse_int_or_float_seq (map write_num l) = Ok (VTuple (map (fun n => VFloat (FQ (Qred (num_value n)))) l))).
Proof. exact (int_or_float_seq l). Qed.
Print Assumptions C15_int_or_float.
Theorem C15_int_or_float_string n : num_wf n -> fits (num_value n) ->
  (n_sign n = NoSign /\ is_int n -> parse_int_or_float_str (write_num n) = Ok (VInt (int_value n))) /\
  (~ (n_sign n = NoSign /\ is_int n) -> parse_int_or_float_str (write_num n) = Ok (VFloat (FQ (Qred (num_value n))))).
Proof. exact (int_or_float_str n). Qed.
Print Assumptions C15_int_or_float_string.
(** ...so the claim "integers exactly for integer literals" fails for signed ones. *)
Theorem C15_signed_refuted : exists n, num_wf n /\ is_int n /\
  parse_int_or_float_seq [write_num n] = Ok (VTuple [VFloat (FQ (-7 # 1))]) /\
  parse_int_or_float_str (write_num n) = Ok (VFloat (FQ (-7 # 1))).
Proof.
  exists {| n_sign := Minus; n_int := [d7]; n_frac := None; n_exp := None |}.
  split; [repeat split; discriminate|]. split; [split; reflexivity|]. vm_compute. auto.
Qed.
Print Assumptions C15_signed_refuted.
Example C15_ex : parse_int_or_float_seq [$"3"; $"10"] = Ok (VTuple [VInt 3; VInt 10]) /\
  parse_int_or_float_seq [$"3"; $"1.5"] = Ok (VTuple [VFloat (FQ 3); VFloat (FQ (3 # 2))]).
Proof. vm_compute. auto. Qed.

(** C16.  Encoding and parse_bytes are inverse, for arrays of any length... *)
Theorem C16_ints zs : Forall int32 zs ->
  parse_bytes (concat (map enc_int zs)) (Array BInt) = Ok (VTuple (map VInt zs)).
Proof. exact (ints_roundtrip zs). Qed.
Print Assumptions C16_ints.
Theorem C16_logicals bs : parse_bytes (concat (map enc_bool bs)) (Array BBool) = Ok (VTuple (map VBool bs)).
Proof. exact (logicals_roundtrip bs). Qed.
Print Assumptions C16_logicals.
(** (any non-zero integer is true) *)
Theorem C16_logicals_nonzero zs : Forall int32 zs ->
  parse_bytes (concat (map enc_int zs)) (Array BBool) = Ok (VTuple (map (fun z => VBool (negb (z =? 0)%Z)) zs)).
Proof. exact (bools_roundtrip zs). Qed.
Print Assumptions C16_logicals_nonzero.
Theorem C16_floats ds : Forall double ds ->
  parse_bytes (concat ds) (Array BFloat) = Ok (VTuple (map (fun d => VFloat (FBits d)) ds)).
Proof. exact (floats_roundtrip ds). Qed.
Print Assumptions C16_floats.
Theorem C16_complexes ps : Forall (fun p => double (fst p) /\ double (snd p)) ps ->
  parse_bytes (concat (map (fun p => fst p ++ snd p) ps)) (Array BComplex) =
  Ok (VTuple (map (fun p => VComplex (FBits (fst p)) (FBits (snd p))) ps)).
Proof. exact (complex_roundtrip ps). Qed.
Print Assumptions C16_complexes.
Theorem C16_text s : ascii_text s ->
  parse_bytes s (Scalar BStr) = Ok (VStr s) /\ parse_bytes s (Array BStr) = Ok (VTuple [VStr s]).
Proof. exact (str_roundtrip s). Qed.
Print Assumptions C16_text.
(** ...and for scalars. *)
Theorem C16_scalars z b d re im : int32 z -> double d -> double re -> double im ->
  parse_bytes (enc_int z) (Scalar BInt) = Ok (VInt z) /\
  parse_bytes (enc_bool b) (Scalar BBool) = Ok (VBool b) /\
  parse_bytes d (Scalar BFloat) = Ok (VFloat (FBits d)) /\
  parse_bytes (re ++ im) (Scalar BComplex) = Ok (VComplex (FBits re) (FBits im)).
Proof. auto using scalar_int, scalar_bool, scalar_float, scalar_complex. Qed.
Print Assumptions C16_scalars.
Example C16_ex : Forall int32 [-1; 258; -2147483648]%Z /\
  parse_bytes ["255"; "255"; "255"; "254"]%char (Scalar BInt) = Ok (VInt (-2)).
Proof. split; [repeat constructor; cbn; discriminate|reflexivity]. Qed.

(** C17.  Records of the wrong length are rejected for every type but complex... *)
Theorem C17_array_length t sz b :
  match t with BFloat => sz = 8 | BInt | BBool => sz = 4 | _ => False end ->
  ((exists v, parse_bytes b (Array t) = Ok v) <-> length b mod sz = 0) /\
  (length b mod sz <> 0 -> parse_bytes b (Array t) = Err StructError) /\
  (forall l, parse_bytes b (Array t) = Ok (VTuple l) -> length b = length l * sz).
Proof. intros H. apply array_accepts. destruct t; try contradiction; now subst. Qed.
Print Assumptions C17_array_length.
Theorem C17_scalar_length t sz b :
  match t with BFloat => sz = 8 | BInt | BBool => sz = 4 | _ => False end ->
  ((exists v, parse_bytes b (Scalar t) = Ok v) <-> length b = sz).
Proof. intros H. apply scalar_accepts. destruct t; try contradiction; now subst. Qed.
Print Assumptions C17_scalar_length.
Theorem C17_text_rejects b : ~ ascii_text b ->
  parse_bytes b (Scalar BStr) = Err UnicodeDecodeError /\ parse_bytes b (Array BStr) = Err UnicodeDecodeError.
Proof. exact (str_rejects b). Qed.
Print Assumptions C17_text_rejects.
(** ...whereas complex accepts every multiple of 8 bytes and drops an odd double. *)
Theorem C17_complex_length_partial b :
  ((exists v, parse_bytes b (Array BComplex) = Ok v) <-> length b mod 8 = 0) /\
  (forall l, parse_bytes b (Array BComplex) = Ok (VTuple l) -> length l = length b / 16).
Proof. exact (complex_accepts b). Qed.
Print Assumptions C17_complex_length_partial.
Theorem C17_complex_refuted : exists b, length b = 24 /\
  (exists v, parse_bytes b (Array BComplex) = Ok (VTuple [v]) /\ parse_bytes b (Scalar BComplex) = Ok v).
Proof. exists (repeat "000"%char 24). split; [reflexivity|]. eexists. split; reflexivity. Qed.
Print Assumptions C17_complex_refuted.
Example C17_ex : parse_bytes (repeat "000"%char 7) (Array BFloat) = Err StructError /\
  parse_bytes (repeat "000"%char 8) (Scalar BInt) = Err ValueError.
Proof. vm_compute. auto. Qed.
