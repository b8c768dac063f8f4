(** Facts about the Fortran record reader. *)
From Verif Require Import PyBase PyVal Bytes SpecBytes BytesFacts Fortran SpecFortran.
From Coq Require Import Lia ZArith.
Local Open Scope list_scope.
Local Open Scope nat_scope.

Lemma size_enc r : short r -> be_size (enc_int (Z.of_nat (length r))) = length r.
Proof.
  unfold short, be_size. change (2 ^ 32)%Z with 4294967296%Z. intros H.
  unfold be_uint, enc_int. cbn [fold_left]. rewrite !ord_byte by lia.
  set (z := Z.of_nat (length r)) in *. assert (0 <= z)%Z by lia.
  change (256 ^ 3)%Z with 16777216%Z. change (256 ^ 2)%Z with 65536%Z.
  change (256 ^ 1)%Z with 256%Z. change (256 ^ 0)%Z with 1%Z. rewrite Z.div_1_r.
  assert (((((0 * 256 + (z / 16777216) mod 256) * 256 + (z / 65536) mod 256) * 256 + (z / 256) mod 256) * 256 + z mod 256) = z)%Z as ->.
  { Z.to_euclidean_division_equations. lia. }
  subst z. lia.
Qed.
Lemma enc_record_len r : length (enc_record r) = length r + 8.
Proof. unfold enc_record. rewrite !app_length, !enc_int_len. lia. Qed.
Lemma enc_file_app a b : enc_file (a ++ b) = enc_file a ++ enc_file b.
Proof. unfold enc_file. now rewrite map_app, concat_app. Qed.
Lemma enc_file_cons r b : enc_file (r :: b) = enc_record r ++ enc_file b.
Proof. reflexivity. Qed.

Lemma bread_app pre d post : 
  bread {| bf_bytes := pre ++ d ++ post; bf_pos := length pre |} (length d) =
  (d, {| bf_bytes := pre ++ d ++ post; bf_pos := length pre + length d |}).
Proof.
  unfold bread. cbn [bf_bytes bf_pos].
  rewrite skipn_app, skipn_all, Nat.sub_diag. cbn [skipn app].
  rewrite firstn_app, firstn_all, Nat.sub_diag. cbn [firstn]. now rewrite app_nil_r.
Qed.
Lemma bread_at B pre d post p n : B = pre ++ d ++ post -> p = length pre -> n = length d ->
  bread {| bf_bytes := B; bf_pos := p |} n = (d, {| bf_bytes := B; bf_pos := p + n |}).
Proof. intros -> -> ->. apply bread_app. Qed.
Lemma bread_end B p n : length B <= p -> bread {| bf_bytes := B; bf_pos := p |} n = ([], {| bf_bytes := B; bf_pos := p |}).
Proof.
  intros H. unfold bread. cbn [bf_bytes bf_pos]. rewrite skipn_all2 by lia. rewrite firstn_nil. cbn [length].
  now rewrite Nat.add_0_r.
Qed.

(** The reader has passed the records [a] and has the records [b] ahead. *)
Definition between (a b : list bytes) : bfile :=
  {| bf_bytes := enc_file (a ++ b); bf_pos := length (enc_file a) |}.

Lemma open_between rs : open_bytes (enc_file rs) = between [] rs.
Proof. reflexivity. Qed.

Lemma next_record a r b : short r -> rnext (between a (r :: b)) = Ok (r, between (a ++ [r]) b).
Proof.
  intros H. unfold rnext, between.
  set (B := enc_file (a ++ r :: b)).
  assert (EB : B = enc_file a ++ enc_int (Z.of_nat (length r)) ++ r ++ enc_int (Z.of_nat (length r)) ++ enc_file b).
  { unfold B. rewrite enc_file_app, enc_file_cons. unfold enc_record. now rewrite <- !app_assoc. }
  rewrite (bread_at B (enc_file a) (enc_int (Z.of_nat (length r))) (r ++ enc_int (Z.of_nat (length r)) ++ enc_file b)) by (auto using enc_int_len).
  change (enc_int (Z.of_nat (length r))) with (byte 3 (Z.of_nat (length r)) :: [byte 2 (Z.of_nat (length r)); byte 1 (Z.of_nat (length r)); byte 0 (Z.of_nat (length r))]) at 1.
  cbv iota beta. rewrite (size_enc r H).
  rewrite (bread_at B (enc_file a ++ enc_int (Z.of_nat (length r))) r (enc_int (Z.of_nat (length r)) ++ enc_file b));
    [|now rewrite EB, <- !app_assoc|now rewrite app_length|reflexivity].
  rewrite (bread_at B (enc_file a ++ enc_int (Z.of_nat (length r)) ++ r) (enc_int (Z.of_nat (length r))) (enc_file b));
    [|now rewrite EB, <- !app_assoc|rewrite !app_length, enc_int_len; lia|reflexivity].
  unfold B. rewrite <- (app_assoc a [r] b). cbn [app]. do 3 f_equal.
  rewrite enc_file_app, app_length, enc_file_cons, app_length, enc_record_len. cbn. lia.
Qed.
Lemma next_end B p : length B <= p -> rnext {| bf_bytes := B; bf_pos := p |} = Err StopIteration.
Proof. intros H. unfold rnext. now rewrite bread_end. Qed.
Lemma next_stop a : rnext (between a []) = Err StopIteration.
Proof. apply next_end. now rewrite app_nil_r. Qed.

(** ** Skipping forwards *)
Lemma skip_one a r b k : short r -> skip_loop (S k) (between a (r :: b)) = skip_loop k (between (a ++ [r]) b).
Proof.
  intros H. cbn [skip_loop]. unfold between at 1.
  set (B := enc_file (a ++ r :: b)).
  assert (EB : B = enc_file a ++ enc_int (Z.of_nat (length r)) ++ r ++ enc_int (Z.of_nat (length r)) ++ enc_file b).
  { unfold B. rewrite enc_file_app, enc_file_cons. unfold enc_record. now rewrite <- !app_assoc. }
  rewrite (bread_at B (enc_file a) (enc_int (Z.of_nat (length r))) (r ++ enc_int (Z.of_nat (length r)) ++ enc_file b)) by (auto using enc_int_len).
  rewrite (size_enc r H). unfold bseek. cbn [bf_bytes bf_pos].
  destruct (Z.ltb_spec (Z.of_nat (length (enc_file a) + 4) + (Z.of_nat (length r) + 4)) 0); [lia|]. cbn [bind].
  f_equal. unfold between, B. rewrite <- (app_assoc a [r] b). cbn [app]. f_equal.
  rewrite enc_file_app, app_length, enc_file_cons, app_length, enc_record_len. cbn. lia.
Qed.
Lemma skip_many k : forall a b, Forall short b -> k <= length b ->
  skip_loop k (between a b) = Ok (between (a ++ firstn k b) (skipn k b)).
Proof.
  induction k as [|k IH]; intros a b Hb Hk; [cbn; now rewrite app_nil_r|].
  destruct b as [|r b]; [cbn in Hk; lia|]. inversion Hb; subst. cbn [length] in Hk.
  rewrite skip_one by assumption. rewrite IH by (auto; lia). cbn [firstn skipn]. now rewrite <- app_assoc.
Qed.
(** Past the end. *)
Lemma be_size_nil : be_size [] = 0.
Proof. reflexivity. Qed.
Lemma skip_past k : forall B p, length B <= p -> exists q, length B <= q /\
  skip_loop k {| bf_bytes := B; bf_pos := p |} = Ok {| bf_bytes := B; bf_pos := q |} /\ p <= q.
Proof.
  induction k as [|k IH]; intros B p H; [exists p; auto|]. cbn [skip_loop]. rewrite bread_end by exact H.
  rewrite be_size_nil. unfold bseek. cbn [bf_bytes bf_pos].
  destruct (Z.ltb_spec (Z.of_nat p + (Z.of_nat 0 + 4)) 0); [lia|]. cbn [bind].
  destruct (IH B (Z.to_nat (Z.of_nat p + (Z.of_nat 0 + 4)))) as (q & Hq & E & L); [lia|]. exists q. repeat split; auto. lia.
Qed.
Lemma skip_loop_app j : forall k f, skip_loop (j + k) f = bind (skip_loop j f) (skip_loop k).
Proof.
  induction j as [|j IH]; intros k f; [reflexivity|]. cbn [Nat.add skip_loop].
  destruct (bread f 4) as [b g]. destruct (bseek g _); [|reflexivity]. cbn [bind]. apply IH.
Qed.

(** ** Going back *)
(** The position after moving back over the trailing length of the last record. *)
Definition inside (a b : list bytes) : bfile :=
  {| bf_bytes := enc_file (a ++ b); bf_pos := length (enc_file a) - 4 |}.
Lemma read_tail a r b : short r -> 
  exists p, bread (inside (a ++ [r]) b) 4 = (enc_int (Z.of_nat (length r)), {| bf_bytes := enc_file (a ++ r :: b); bf_pos := p |})
    /\ p = length (enc_file a) + length r + 8.
Proof.
  intros H. unfold inside. rewrite <- (app_assoc a [r] b). cbn [app]. eexists. split.
  - apply (bread_at _ (enc_file a ++ enc_int (Z.of_nat (length r)) ++ r) _ (enc_file b)).
    + rewrite enc_file_app, enc_file_cons. unfold enc_record. now rewrite <- !app_assoc.
    + rewrite enc_file_app, !app_length, enc_int_len, enc_file_cons, app_length, enc_record_len. cbn. lia.
    + reflexivity.
  - rewrite enc_file_app, !app_length, enc_file_cons, app_length, enc_record_len. cbn. lia.
Qed.
Lemma file_len_snoc a r : length (enc_file (a ++ [r])) = length (enc_file a) + length r + 8.
Proof. rewrite enc_file_app, app_length, enc_file_cons, app_length, enc_record_len. cbn. lia. Qed.

Lemma back_one a q r b k : short r ->
  rewind_loop (S k) (inside ((a ++ [q]) ++ [r]) b) = rewind_loop k (inside (a ++ [q]) (r :: b)).
Proof.
  intros H. cbn [rewind_loop]. destruct (read_tail (a ++ [q]) r b H) as (p & E & Ep). rewrite E.
  rewrite size_enc by exact H. unfold bseek. cbn [bf_bytes bf_pos]. rewrite file_len_snoc in Ep.
  destruct (Z.ltb_spec (Z.of_nat p + (- Z.of_nat (length r) - 12)) 0); [lia|]. cbn [bind]. f_equal.
  unfold inside. f_equal. rewrite file_len_snoc. lia.
Qed.
Lemma back_many k : forall a q c b, Forall short c -> length c = k ->
  rewind_loop k (inside ((a ++ [q]) ++ c) b) = Ok (inside (a ++ [q]) (c ++ b)).
Proof.
  induction k as [|k IH]; intros a q c b Hc Hk.
  - destruct c; [|discriminate]. cbn. now rewrite app_nil_r.
  - destruct c as [|r c _] using rev_ind; [discriminate|].
    rewrite app_length in Hk. cbn in Hk. apply Forall_app in Hc as [Hc Hr]. inversion Hr; subst.
    destruct c as [|r' c' _] using rev_ind.
    + cbn [length] in Hk. assert (k = 0) as -> by lia. cbn [app]. rewrite back_one by assumption. reflexivity.
    + rewrite !app_assoc. rewrite back_one by assumption.
      rewrite <- app_assoc. rewrite (IH a q (c' ++ [r']) (r :: b)); auto; [|lia].
      now rewrite <- !app_assoc.
Qed.
(** Moving back over the records [c] from after [a ++ c]. *)
Lemma rewind_records a c b : Forall short c -> c <> [] ->
  rskip (- Z.of_nat (length c)) (between (a ++ c) b) = Ok (between a (c ++ b)).
Proof.
  intros Hc Hn. destruct c as [|r c]; [congruence|]. cbn [length]. inversion Hc as [|? ? Hr Hc']; subst.
  unfold rskip. destruct (Z.eqb_spec (- Z.of_nat (S (length c))) 0); [lia|].
  destruct (Z.ltb_spec (- Z.of_nat (S (length c))) 0); [|lia].
  unfold bseek at 1. cbn [bf_bytes bf_pos between].
  assert (L : 8 <= length (enc_file (a ++ r :: c))).
  { rewrite enc_file_app, app_length, enc_file_cons, app_length, enc_record_len. lia. }
  destruct (Z.ltb_spec (Z.of_nat (length (enc_file (a ++ r :: c))) + -4) 0); [lia|]. cbn [bind].
  replace (Z.to_nat (Z.abs (- Z.of_nat (S (length c)))) - 1) with (length c) by lia.
  replace {| bf_bytes := enc_file ((a ++ r :: c) ++ b); bf_pos := Z.to_nat (Z.of_nat (length (enc_file (a ++ r :: c))) + -4) |}
    with (inside ((a ++ [r]) ++ c) b).
  2:{ unfold inside. rewrite <- (app_assoc a [r] c). cbn [app]. f_equal. lia. }
  rewrite back_many by auto. cbn [bind].
  destruct (read_tail a r (c ++ b) Hr) as (p & E & Ep). rewrite E. rewrite size_enc by exact Hr.
  unfold bseek. cbn [bf_bytes bf_pos].
  destruct (Z.ltb_spec (Z.of_nat p + (- Z.of_nat (length r) - 8)) 0); [lia|].
  unfold between. cbn [app]. do 2 f_equal. lia.
Qed.
(** Going back further than the start. *)
Lemma rewind_loop_before r b k : short r -> rewind_loop (S k) (inside [r] b) = Err OSError.
Proof.
  intros H. cbn [rewind_loop]. destruct (read_tail [] r b H) as (p & E & Ep). cbn [app] in E. rewrite E.
  rewrite size_enc by exact H. unfold bseek. cbn [bf_bytes bf_pos].
  cbn in Ep. destruct (Z.ltb_spec (Z.of_nat p + (- Z.of_nat (length r) - 12)) 0); [|lia]. reflexivity.
Qed.
Lemma rewind_loop_app j : forall k f, rewind_loop (j + k) f = bind (rewind_loop j f) (rewind_loop k).
Proof.
  induction j as [|j IH]; intros k f; [reflexivity|]. cbn [Nat.add rewind_loop].
  destruct (bread f 4) as [b g]. destruct (bseek g _); [|reflexivity]. cbn [bind]. apply IH.
Qed.
Lemma rewind_before a b n : Forall short a -> (Z.of_nat (length a) < n)%Z -> rskip (- n) (between a b) = Err OSError.
Proof.
  intros Ha Hn. unfold rskip. destruct (Z.eqb_spec (- n) 0); [lia|]. destruct (Z.ltb_spec (- n) 0); [|lia].
  unfold bseek at 1. cbn [between bf_pos bf_bytes].
  destruct a as [|r a].
  - cbn. reflexivity.
  - inversion Ha as [|? ? Hr Ha']; subst.
    assert (L : 8 <= length (enc_file (r :: a))).
    { rewrite enc_file_cons, app_length, enc_record_len. lia. }
    destruct (Z.ltb_spec (Z.of_nat (length (enc_file (r :: a))) + -4) 0); [lia|]. cbn [bind].
    replace {| bf_bytes := enc_file ((r :: a) ++ b); bf_pos := Z.to_nat (Z.of_nat (length (enc_file (r :: a))) + -4) |}
      with (inside (([] ++ [r]) ++ a) b).
    2:{ unfold inside. cbn [app]. f_equal. lia. }
    cbn [length] in Hn.
    replace (Z.to_nat (Z.abs (- n)) - 1) with (length a + S (Z.to_nat n - 2 - length a)) by lia.
    rewrite rewind_loop_app. rewrite back_many by auto. cbn [bind app]. now rewrite rewind_loop_before.
Qed.

(** ** A history of operations *)
(** One operation, a StopIteration being caught by the caller. *)
Definition rstep (f : bfile) (o : op) : result (outcome * bfile) :=
  match o with
  | Next => match rnext f with
            | Ok (d, f') => Ok (Data d, f')
            | Err StopIteration => Ok (Stop, f)
            | Err e => Err e
            end
  | Skip n => f' <- rskip n f ;; Ok (Moved, f')
  | Rewind n => f' <- rrewind n f ;; Ok (Moved, f')
  end.
Fixpoint rrun (f : bfile) (os : list op) : result (list outcome) :=
  match os with
  | [] => Ok []
  | o :: os' => x <- rstep f o ;; let (d, f') := x in
                ds <- rrun f' os' ;; Ok (d :: ds)
  end.

(** The reader state matching a cursor. *)
Definition matches (rs : list bytes) (c : cursor) (f : bfile) : Prop :=
  match c with
  | At i => i <= length rs /\ f = between (firstn i rs) (skipn i rs)
  | Exhausted => bf_bytes f = enc_file rs /\ length (enc_file rs) <= bf_pos f
  end.
Lemma between_split rs i : enc_file (firstn i rs ++ skipn i rs) = enc_file rs.
Proof. now rewrite firstn_skipn. Qed.

Lemma skipn_split {A} (i j : nat) (l : list A) : i <= j -> firstn i l ++ firstn (j - i) (skipn i l) = firstn j l.
Proof.
  intros H. replace j with (i + (j - i)) at 2 by lia. revert l. induction i as [|i IH]; intros l; [now rewrite Nat.sub_0_r|].
  destruct l as [|x l]; [now rewrite skipn_nil, !firstn_nil|]. destruct j; [lia|]. cbn [firstn skipn Nat.add app Nat.sub].
  f_equal. replace (i + (j - i)) with j by lia. revert l.
  clear -H. revert j H. induction i as [|i IH]; intros j H l; [cbn; now rewrite Nat.sub_0_r|].
  destruct j; [lia|]. destruct l as [|x l]; [now rewrite skipn_nil, !firstn_nil|]. cbn. f_equal. apply IH. lia.
Qed.
Lemma skipn_skipn' {A} (i j : nat) (l : list A) : skipn j (skipn i l) = skipn (i + j) l.
Proof. revert l. induction i as [|i IH]; intros l; [reflexivity|]. destruct l; [now rewrite !skipn_nil|]. cbn. apply IH. Qed.
Lemma Forall_skipn {A} (P : A -> Prop) i l : Forall P l -> Forall P (skipn i l).
Proof. intros H. rewrite <- (firstn_skipn i l) in H. now apply Forall_app in H. Qed.
Lemma Forall_firstn {A} (P : A -> Prop) i l : Forall P l -> Forall P (firstn i l).
Proof. intros H. rewrite <- (firstn_skipn i l) in H. now apply Forall_app in H. Qed.

Lemma move_ok rs c f n x c' : Forall short rs -> matches rs c f -> move rs c n = Some (x, c') ->
  exists f', rskip n f = Ok f' /\ x = Moved /\ matches rs c' f'.
Proof.
  intros Hs HM E. destruct c as [i|]; cbn [move] in E.
  - destruct HM as [Hi ->].
    destruct (Z.ltb_spec (Z.of_nat i + n) 0); [discriminate|].
    destruct (Z.leb_spec (Z.of_nat i + n) (Z.of_nat (length rs))).
    + injection E as <- <-. destruct (Z.lt_trichotomy n 0) as [Hn|[->|Hn]].
      * set (j := Z.to_nat (Z.of_nat i + n)). assert (Hj : j <= i) by lia.
        assert (EQ : firstn i rs = firstn j rs ++ firstn (i - j) (skipn j rs)) by (symmetry; now apply skipn_split).
        assert (LC : length (firstn (i - j) (skipn j rs)) = i - j).
        { rewrite firstn_length, skipn_length. lia. }
        exists (between (firstn j rs) (skipn j rs)). split; [|split; [reflexivity|split; [lia|reflexivity]]].
        rewrite EQ. replace n with (- Z.of_nat (length (firstn (i - j) (skipn j rs))))%Z by (rewrite LC; lia).
        rewrite rewind_records.
        -- f_equal. f_equal. replace i with (j + (i - j)) at 2 by lia. rewrite <- skipn_skipn'. apply firstn_skipn.
        -- now apply Forall_firstn, Forall_skipn.
        -- intros E. rewrite E in LC. cbn in LC. lia.
      * exists (between (firstn i rs) (skipn i rs)). rewrite Z.add_0_r, Nat2Z.id. repeat split; auto.
      * exists (between (firstn (Z.to_nat (Z.of_nat i + n)) rs) (skipn (Z.to_nat (Z.of_nat i + n)) rs)).
        split; [|repeat split; lia]. unfold rskip. destruct (Z.eqb_spec n 0); [lia|]. destruct (Z.ltb_spec n 0); [lia|].
        rewrite skip_many; [|now apply Forall_skipn|rewrite skipn_length; lia].
        f_equal. f_equal.
        -- replace (Z.to_nat n) with (Z.to_nat (Z.of_nat i + n) - i) by lia. apply skipn_split. lia.
        -- rewrite skipn_skipn'. f_equal. lia.
    + injection E as <- <-.
      unfold rskip. destruct (Z.eqb_spec n 0); [lia|]. destruct (Z.ltb_spec n 0); [lia|].
      replace (Z.to_nat n) with (length (skipn i rs) + (Z.to_nat n - length (skipn i rs))) by (rewrite skipn_length; lia).
      rewrite skip_loop_app, skip_many; [|now apply Forall_skipn|lia]. cbn [bind].
      rewrite firstn_all, skipn_all, firstn_skipn. unfold between. rewrite app_nil_r.
      destruct (skip_past (Z.to_nat n - length (skipn i rs)) (enc_file rs) (length (enc_file rs)) (le_n _)) as (q & Hq & E' & _).
      rewrite E'. eexists. split; [reflexivity|]. split; [reflexivity|]. split; [reflexivity|exact Hq].
  - destruct (Z.ltb_spec n 0); [discriminate|]. injection E as <- <-. destruct f as [B p]. destruct HM as [E Hp]. cbn in E, Hp. subst B.
    unfold rskip. destruct (Z.eqb_spec n 0).
    + eexists. split; [reflexivity|]. split; [reflexivity|]. split; [reflexivity|exact Hp].
    + destruct (Z.ltb_spec n 0); [lia|]. destruct (skip_past (Z.to_nat n) _ _ Hp) as (q & Hq & E' & _). rewrite E'.
      eexists. split; [reflexivity|]. split; [reflexivity|]. split; [reflexivity|exact Hq].
Qed.

Lemma nth_split_at {A} (l : list A) i r : nth_error l i = Some r -> skipn i l = r :: skipn (S i) l /\ firstn (S i) l = firstn i l ++ [r].
Proof.
  revert l. induction i as [|i IH]; intros [|x l] H; try discriminate.
  - injection H as ->. split; reflexivity.
  - cbn in H. destruct (IH l H) as [E1 E2]. split; [exact E1|].
    change (firstn (S (S i)) (x :: l)) with (x :: firstn (S i) l). rewrite E2. reflexivity.
Qed.
Lemma step_ok rs c f o x c' : Forall short rs -> matches rs c f -> cursor_step rs c o = Some (x, c') ->
  exists f', rstep f o = Ok (x, f') /\ matches rs c' f'.
Proof.
  intros Hs HM E. destruct o as [|n|n]; cbn [cursor_step rstep] in *.
  - destruct c as [i|].
    + destruct HM as [Hi ->]. destruct (nth_error rs i) as [r|] eqn:Er.
      * injection E as <- <-. destruct (nth_split_at rs i r Er) as [E1 E2].
        assert (short r) by (rewrite Forall_forall in Hs; apply Hs; eapply nth_error_In; eauto).
        rewrite E1, next_record by assumption. eexists. split; [reflexivity|]. split; [|now rewrite E2].
        apply nth_error_Some. congruence.
      * injection E as <- <-. apply nth_error_None in Er. rewrite skipn_all2 by lia. rewrite next_stop.
        eexists. split; [reflexivity|]. split; [exact Hi|]. now rewrite skipn_all2 by lia.
    + injection E as <- <-. destruct f as [B p]. destruct HM as [E Hp]. cbn in E, Hp. subst B. rewrite next_end by exact Hp.
      eexists. split; [reflexivity|]. split; auto.
  - destruct (move_ok rs c f n x c' Hs HM E) as (f' & E' & -> & M). rewrite E'. cbn. eauto.
  - destruct (move_ok rs c f (- n) x c' Hs HM E) as (f' & E' & -> & M). unfold rrewind. rewrite E'. cbn. eauto.
Qed.
Lemma run_ok rs os : Forall short rs -> forall c f xs, matches rs c f -> cursor_run rs c os = Some xs -> rrun f os = Ok xs.
Proof.
  intros Hs. induction os as [|o os IH]; intros c f xs HM E; cbn [cursor_run] in E.
  - now injection E as <-.
  - destruct (cursor_step rs c o) as [[x c']|] eqn:Es; [|discriminate].
    destruct (cursor_run rs c' os) as [ys|] eqn:Er; [|discriminate]. injection E as <-.
    destruct (step_ok rs c f o x c' Hs HM Es) as (f' & E' & M'). cbn [rrun]. rewrite E'. cbn [bind].
    now rewrite (IH c' f' ys M' Er).
Qed.
Lemma history rs os xs : Forall short rs -> cursor_run rs (At 0) os = Some xs -> rrun (open_bytes (enc_file rs)) os = Ok xs.
Proof.
  intros Hs. apply run_ok; auto. split; [lia|]. reflexivity.
Qed.

(** ** Reading everything *)
Lemma records_from a b fuel : Forall short b -> length b < fuel -> records_loop fuel (between a b) = Ok b.
Proof.
  revert a fuel. induction b as [|r b IH]; intros a fuel Hb Hf; (destruct fuel; [cbn in Hf; lia|]); cbn [records_loop].
  - now rewrite next_stop.
  - inversion Hb; subst. rewrite next_record by assumption. cbn in Hf. rewrite IH by (auto; lia). reflexivity.
Qed.
Lemma file_len rs : length rs <= length (enc_file rs).
Proof. induction rs as [|r rs IH]; [reflexivity|]. rewrite enc_file_cons, app_length, enc_record_len. cbn. lia. Qed.
Lemma records_between a b : Forall short b -> records (between a b) = Ok b.
Proof.
  intros H. unfold records. apply records_from; [exact H|]. cbn [between bf_bytes].
  pose proof (file_len (a ++ b)). rewrite app_length in *. lia.
Qed.
Lemma records_file rs : Forall short rs -> records (open_bytes (enc_file rs)) = Ok rs.
Proof. rewrite open_between. apply records_between. Qed.
