(** Typed reads over records. *)
From Coq Require Import Lia ZArith.
From Verif Require Import PyBase PyVal Bytes SpecBytes BytesFacts Fortran SpecFortran FortranFacts.
Local Open Scope list_scope.
Local Open Scope nat_scope.

(** Record [r] decodes as [v] under type [t]. *)
Definition decodes (t : bspec) (r : bytes) (v : pyval) : Prop := short r /\ parse_bytes r t = Ok v.

Lemma get_ok a t r b v : decodes t r v -> rget t (between a (r :: b)) = Ok (v, between (a ++ [r]) b).
Proof. intros [Hs Hv]. unfold rget. rewrite next_record by exact Hs. cbn [bind]. now rewrite Hv. Qed.

Inductive all_decode : list bspec -> list bytes -> list pyval -> Prop :=
| ad_nil : all_decode [] [] []
| ad_cons t r v ts rs vs : decodes t r v -> all_decode ts rs vs -> all_decode (t :: ts) (r :: rs) (v :: vs).

Lemma all_decode_len ts rs vs : all_decode ts rs vs -> length rs = length ts /\ length vs = length ts.
Proof. induction 1; cbn; lia. Qed.

Lemma dict_ok ks ts rs vs a b : all_decode ts rs vs -> length ks = length ts ->
  get_dtype_dict (combine ks ts) (between a (rs ++ b)) = Ok (combine ks vs, between (a ++ rs) b).
Proof.
  intros H. revert ks a. induction H as [|t r v ts rs vs Hd H IH]; intros [|k ks] a Hl; try discriminate.
  - cbn. now rewrite app_nil_r.
  - destruct Hd as [Hs Hv]. cbn [combine get_dtype_dict app]. rewrite next_record by exact Hs. rewrite Hv. cbn [bind].
    rewrite IH by (cbn in Hl; lia). cbn [bind]. now rewrite <- app_assoc.
Qed.
Lemma dict_short ks ts ks' ts' rs vs a : all_decode ts rs vs -> length ks = length ts ->
  get_dtype_dict (combine ks ts ++ combine ks' ts') (between a rs) = Ok (combine ks vs, between (a ++ rs) []).
Proof.
  intros H. revert ks a. induction H as [|t r v ts rs vs Hd H IH]; intros [|k ks] a Hl; try discriminate.
  - cbn. rewrite app_nil_r. destruct (combine ks' ts') as [|[k t] l]; [reflexivity|]. cbn [get_dtype_dict]. now rewrite next_stop.
  - destruct Hd as [Hs Hv]. cbn [combine get_dtype_dict app]. rewrite next_record by exact Hs. rewrite Hv. cbn [bind].
    rewrite IH by (cbn in Hl; lia). cbn [bind]. now rewrite <- app_assoc.
Qed.
Lemma dict_bad ks ts k t ts' rs vs r e a b : all_decode ts rs vs -> length ks = length ts ->
  short r -> parse_bytes r t = Err e ->
  get_dtype_dict (combine ks ts ++ (k, t) :: ts') (between a (rs ++ r :: b)) = Err e.
Proof.
  intros H. revert ks a. induction H as [|t' r' v ts rs vs Hd H IH]; intros [|k' ks] a Hl Hr He; try discriminate.
  - cbn [combine app get_dtype_dict]. rewrite next_record by exact Hr. now rewrite He.
  - destruct Hd as [Hs Hv]. cbn [combine get_dtype_dict app]. rewrite next_record by exact Hs. rewrite Hv. cbn [bind].
    now rewrite IH by (auto; cbn in Hl; lia).
Qed.
Lemma iter_ok ts rs vs a b : all_decode ts rs vs ->
  get_dtype_iter ts (between a (rs ++ b)) = Ok (vs, between (a ++ rs) b).
Proof.
  intros H. revert a. induction H as [|t r v ts rs vs Hd H IH]; intros a; cbn [get_dtype_iter app].
  - now rewrite app_nil_r.
  - rewrite get_ok with (v := v) by exact Hd. cbn [in_generator bind]. rewrite IH. cbn [bind]. now rewrite <- app_assoc.
Qed.
Lemma iter_short ts t ts' rs vs a : all_decode ts rs vs ->
  get_dtype_iter (ts ++ t :: ts') (between a rs) = Err RuntimeError.
Proof.
  intros H. revert a. induction H as [|t' r v ts rs vs Hd H IH]; intros a; cbn [get_dtype_iter app].
  - unfold rget. now rewrite next_stop.
  - rewrite get_ok with (v := v) by exact Hd. cbn [in_generator bind]. now rewrite IH.
Qed.

(** [n] rounds of the same types. *)
Lemma cycle_ok {A} (read : bfile -> result (A * bfile)) gs (outs : list A) a b :
  Forall2 (fun g o => forall a b, read (between a (g ++ b)) = Ok (o, between (a ++ g) b)) gs outs ->
  cycle read (length gs) (between a (concat gs ++ b)) = Ok (outs, between (a ++ concat gs) b).
Proof.
  intros H. revert a. induction H as [|g o gs outs Hg H IH]; intros a; cbn [length cycle concat app].
  - now rewrite app_nil_r.
  - rewrite <- app_assoc, Hg. cbn [bind]. rewrite IH. cbn [bind]. now rewrite <- app_assoc.
Qed.
Lemma cycle_dict_ok ks ts gs vss a b : length ks = length ts -> Forall2 (all_decode ts) gs vss ->
  cycle_dict (combine ks ts) (length gs) (between a (concat gs ++ b)) = Ok (map (combine ks) vss, between (a ++ concat gs) b).
Proof.
  intros Hl H. unfold cycle_dict. apply cycle_ok.
  induction H as [|g vs gs vss Hg H IH]; cbn [map]; constructor; [|exact IH]. intros. now apply dict_ok.
Qed.
Lemma cycle_iter_ok ts gs vss a b : Forall2 (all_decode ts) gs vss ->
  cycle_iter ts (length gs) (between a (concat gs ++ b)) = Ok (vss, between (a ++ concat gs) b).
Proof.
  intros H. unfold cycle_iter. apply cycle_ok.
  induction H as [|g vs gs vss Hg H IH]; constructor; [|exact IH]. intros. now apply iter_ok.
Qed.
(** When records run out: the dict form keeps yielding what is left, then empty dicts. *)
Lemma cycle_dict_empty d n a : d <> [] -> cycle_dict d n (between a []) = Ok (repeat [] n, between a []).
Proof.
  intros Hd. unfold cycle_dict. induction n as [|n IH]; [reflexivity|]. cbn [cycle repeat].
  destruct d as [|[k t] d]; [congruence|]. cbn [get_dtype_dict]. rewrite next_stop. cbn [bind].
  cbn [get_dtype_dict] in IH. rewrite IH. reflexivity.
Qed.
