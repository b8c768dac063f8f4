(** General facts about the prelude [PyBase.v]. *)
From Verif Require Import PyBase.

Lemma str_eqb_refl s : str_eqb s s = true.
Proof. induction s as [|x s IH]; cbn; [reflexivity|]. now rewrite Ascii.eqb_refl. Qed.

Lemma str_eqb_eq a b : str_eqb a b = true <-> a = b.
Proof.
  revert b; induction a as [|x a IH]; intros [|y b]; cbn; try (split; congruence).
  rewrite andb_true_iff, IH, Ascii.eqb_eq; split; [intros []; congruence|].
  intros H; inversion H; auto.
Qed.

Lemma str_eqb_spec a b : reflect (a = b) (str_eqb a b).
Proof. apply iff_reflect; symmetry; apply str_eqb_eq. Qed.

Lemma str_eqb_neq a b : str_eqb a b = false <-> a <> b.
Proof. rewrite <- not_true_iff_false, str_eqb_eq; reflexivity. Qed.

Definition hd_not {A} (f : A -> bool) (s : list A) : Prop :=
  match s with [] => True | x :: _ => f x = false end.
Definition last_not {A} (f : A -> bool) (s : list A) : Prop := hd_not f (rev s).

Lemma take_while_app {A} (f : A -> bool) w s :
  forallb f w = true -> hd_not f s -> take_while f (w ++ s) = w.
Proof.
  induction w as [|x w IH]; cbn; intros Hw Hs.
  - destruct s as [|y s]; [reflexivity|]. cbn in Hs |- *; now rewrite Hs.
  - apply andb_true_iff in Hw as [Hx Hw]. rewrite Hx, IH; auto.
Qed.

Lemma drop_while_app {A} (f : A -> bool) w s :
  forallb f w = true -> hd_not f s -> drop_while f (w ++ s) = s.
Proof.
  induction w as [|x w IH]; cbn; intros Hw Hs.
  - destruct s as [|y s]; [reflexivity|]. cbn in Hs |- *; now rewrite Hs.
  - apply andb_true_iff in Hw as [Hx Hw]. rewrite Hx; auto.
Qed.

Lemma take_drop_while {A} (f : A -> bool) s : take_while f s ++ drop_while f s = s.
Proof. induction s as [|x s IH]; cbn; [reflexivity|]. destruct (f x); cbn; congruence. Qed.

Lemma take_while_all {A} (f : A -> bool) s : forallb f (take_while f s) = true.
Proof. induction s as [|x s IH]; cbn; [reflexivity|]. destruct (f x) eqn:E; cbn; [now rewrite E|reflexivity]. Qed.

Lemma drop_while_hd {A} (f : A -> bool) s : hd_not f (drop_while f s).
Proof. induction s as [|x s IH]; cbn; [exact I|]. destruct (f x) eqn:E; [exact IH|exact E]. Qed.

Lemma drop_while_id {A} (f : A -> bool) s : hd_not f s -> drop_while f s = s.
Proof. destruct s as [|x s]; cbn; [reflexivity|]. intros ->; reflexivity. Qed.

Lemma drop_while_none {A} (f : A -> bool) s : forallb f s = true -> drop_while f s = [].
Proof. induction s as [|x s IH]; cbn; [reflexivity|]. intros H; apply andb_true_iff in H as [-> H]; auto. Qed.

Lemma strip_by_id f s : hd_not f s -> last_not f s -> strip_by f s = s.
Proof.
  intros H1 H2; unfold strip_by, rstrip_by, lstrip_by.
  rewrite (drop_while_id f s H1), (drop_while_id f (rev s) H2). apply rev_involutive.
Qed.

Lemma forallb_rev {A} (f : A -> bool) l : forallb f (rev l) = forallb f l.
Proof.
  induction l as [|x l IH]; cbn; [reflexivity|].
  rewrite forallb_app, IH; cbn. now rewrite andb_true_r, andb_comm.
Qed.

Lemma hd_not_all {A} (f g : A -> bool) s :
  forallb g s = true -> (forall x, g x = true -> f x = false) -> hd_not f s.
Proof.
  intros Hs H; destruct s as [|x s]; cbn in *; [exact I|].
  apply andb_true_iff in Hs as [Hx _]; auto.
Qed.

Lemma strip_by_core f a s b :
  forallb f a = true -> forallb f b = true -> hd_not f s -> last_not f s ->
  s <> [] -> strip_by f (a ++ s ++ b) = s.
Proof.
  intros Ha Hb H1 H2 Hs. unfold strip_by, rstrip_by, lstrip_by.
  rewrite drop_while_app; [|exact Ha|destruct s; [congruence|exact H1]].
  rewrite rev_app_distr, drop_while_app; [apply rev_involutive| |exact H2].
  now rewrite forallb_rev.
Qed.

Lemma strip_by_all f s : forallb f s = true -> strip_by f s = [].
Proof.
  intros H; unfold strip_by, rstrip_by, lstrip_by. now rewrite (drop_while_none f s H).
Qed.

(** ** Splitting into words *)
Lemma split_aux_word w : forall cur s, forallb (fun c => negb (is_space c)) w = true ->
  split_aux cur (w ++ s) = split_aux (cur ++ w) s.
Proof.
  induction w as [|x w IH]; intros cur s H; cbn.
  - now rewrite app_nil_r.
  - cbn in H; apply andb_true_iff in H as [Hx Hw]. apply negb_true_iff in Hx.
    rewrite Hx, IH by exact Hw. now rewrite <- app_assoc.
Qed.

Lemma split_aux_ws w : forall s, forallb is_space w = true -> split_aux [] (w ++ s) = split_aux [] s.
Proof.
  induction w as [|x w IH]; intros s H; cbn; [reflexivity|].
  cbn in H; apply andb_true_iff in H as [-> Hw]. cbn. auto.
Qed.

Definition wordb (w : str) : bool := negb (isempty w) && forallb (fun c => negb (is_space c)) w.
Definition word (w : str) : Prop := w <> [] /\ forallb (fun c => negb (is_space c)) w = true.

Lemma split_word_ws w a s :
  word w -> forallb is_space a = true -> a <> [] ->
  split (w ++ a ++ s) = w :: split s.
Proof.
  intros [Hne Hw] Ha Hane; unfold split.
  rewrite split_aux_word by exact Hw. cbn [app].
  destruct a as [|x a]; [congruence|]. cbn in Ha; apply andb_true_iff in Ha as [Hx Ha].
  cbn [app split_aux]. rewrite Hx.
  destruct w as [|y w]; [congruence|]. cbn [flush app]. now rewrite split_aux_ws.
Qed.

Lemma split_word_end w : word w -> split w = [w].
Proof.
  intros [Hne Hw]; unfold split. rewrite <- (app_nil_r w) at 1.
  rewrite split_aux_word by exact Hw. destruct w; [congruence|reflexivity].
Qed.

Lemma split_ws_app a s : forallb is_space a = true -> split (a ++ s) = split s.
Proof. intros; now apply split_aux_ws. Qed.

Lemma split_nil : split [] = [].
Proof. reflexivity. Qed.

Lemma split_all_ws a : forallb is_space a = true -> split a = [].
Proof. intros H; rewrite <- (app_nil_r a), split_ws_app; auto. Qed.

Lemma split_aux_sound : forall s cur, forallb (fun c => negb (is_space c)) cur = true ->
  Forall word (split_aux cur s).
Proof.
  assert (F : forall cur, forallb (fun c => negb (is_space c)) cur = true -> Forall word (flush cur)).
  { intros [|x cur] H; constructor; [|constructor]. split; [congruence|exact H]. }
  induction s as [|x s IH]; intros cur H; cbn; [auto|].
  destruct (is_space x) eqn:E.
  - apply Forall_app; auto.
  - apply IH. rewrite forallb_app, H; cbn. now rewrite E.
Qed.

Lemma split_words s : Forall word (split s).
Proof. now apply split_aux_sound. Qed.

(** ** Characters: exhaustive case analysis *)
Lemma ascii_forall (P : ascii -> bool) :
  forallb P (map ascii_of_nat (seq 0 256)) = true -> forall c, P c = true.
Proof.
  intros H c. rewrite forallb_forall in H. apply H.
  apply in_map_iff. exists (nat_of_ascii c). split; [apply ascii_nat_embedding|].
  apply in_seq. pose proof (nat_ascii_bounded c); lia.
Qed.

(** Prove [f c = true -> g c = true]-style facts over all characters. *)
Lemma ascii_imp (f g : ascii -> bool) :
  forallb (fun c => implb (f c) (g c)) (map ascii_of_nat (seq 0 256)) = true ->
  forall c, f c = true -> g c = true.
Proof.
  intros H c Hf. pose proof (ascii_forall _ H c) as E. cbn in E. now rewrite Hf in E.
Qed.
Lemma ascii_imp_not (f g : ascii -> bool) :
  forallb (fun c => implb (f c) (negb (g c))) (map ascii_of_nat (seq 0 256)) = true ->
  forall c, f c = true -> g c = false.
Proof.
  intros H c Hf. apply negb_true_iff. revert c Hf. now apply ascii_imp.
Qed.
Ltac ascii_dec := first [ apply ascii_imp; vm_compute; reflexivity
                        | apply ascii_imp_not; vm_compute; reflexivity ].

(** ** Dictionaries *)
Section DictFacts.
  Context {K V : Type} (keqb : K -> K -> bool)
          (keqb_spec : forall a b, reflect (a = b) (keqb a b)).

  Lemma dget_dset (d : list (K * V)) k v k' :
    dget keqb (dset keqb d k v) k' = if keqb k k' then Some v else dget keqb d k'.
  Proof.
    induction d as [|[k0 v0] d IH]; cbn.
    - reflexivity.
    - destruct (keqb_spec k0 k) as [->|Hn]; cbn.
      + destruct (keqb_spec k k'); reflexivity.
      + destruct (keqb_spec k0 k') as [->|Hn']; [|exact IH].
        destruct (keqb_spec k k'); [congruence|reflexivity].
  Qed.

  Lemma dset_new (d : list (K * V)) k v : dget keqb d k = None -> dset keqb d k v = d ++ [(k, v)].
  Proof.
    induction d as [|[k0 v0] d IH]; cbn; [reflexivity|].
    destruct (keqb k0 k); [discriminate|]. intros H; now rewrite IH.
  Qed.

  Lemma dget_in (d : list (K * V)) k v : dget keqb d k = Some v -> In (k, v) d.
  Proof.
    induction d as [|[k0 v0] d IH]; cbn; [discriminate|].
    destruct (keqb_spec k0 k) as [->|Hn]; [intros H; inversion H; auto|auto].
  Qed.

  Lemma dget_none (d : list (K * V)) k : dget keqb d k = None <-> ~ In k (map fst d).
  Proof.
    induction d as [|[k0 v0] d IH]; cbn; [tauto|].
    destruct (keqb_spec k0 k) as [->|Hn]; [split; [discriminate|tauto]|].
    rewrite IH; tauto.
  Qed.

  Lemma dget_nodup (d : list (K * V)) k v :
    NoDup (map fst d) -> In (k, v) d -> dget keqb d k = Some v.
  Proof.
    induction d as [|[k0 v0] d IH]; cbn; [tauto|].
    intros Hnd Hin; inversion Hnd; subst.
    destruct (keqb_spec k0 k) as [->|Hn].
    - destruct Hin as [Hin|Hin]; [congruence|].
      exfalso; apply H1, in_map_iff; exists (k, v); auto.
    - destruct Hin as [Hin|Hin]; [congruence|auto].
  Qed.

  Lemma dset_keys (d : list (K * V)) k v :
    map fst (dset keqb d k v) = if dmem keqb d k then map fst d else map fst d ++ [k].
  Proof.
    unfold dmem; induction d as [|[k0 v0] d IH]; cbn; [reflexivity|].
    destruct (keqb k0 k); cbn; [reflexivity|].
    rewrite IH. destruct (dget keqb d k); reflexivity.
  Qed.

  Lemma dset_nodup (d : list (K * V)) k v :
    NoDup (map fst d) -> NoDup (map fst (dset keqb d k v)).
  Proof.
    intros H; rewrite dset_keys; unfold dmem.
    destruct (dget keqb d k) eqn:E; [exact H|].
    apply dget_none in E.
    apply NoDup_rev in H. rewrite <- (rev_involutive (map fst d ++ [k])).
    apply NoDup_rev. rewrite rev_app_distr; cbn. constructor; [|exact H].
    now rewrite <- in_rev.
  Qed.

  Lemma dict_of_nodup (items : list (K * V)) :
    NoDup (map fst items) -> dict_of keqb items = items.
  Proof.
    assert (G : forall (items d : list (K * V)), NoDup (map fst (d ++ items)) -> dupdate keqb d items = d ++ items).
    { induction items0 as [|[k v] items0 IH]; intros d H; cbn; [now rewrite app_nil_r|].
      unfold dupdate in *; cbn. rewrite dset_new.
      - rewrite IH; rewrite <- app_assoc; auto.
      - apply dget_none. rewrite map_app in H; cbn in H.
        apply NoDup_remove_2 in H. rewrite in_app_iff in H; tauto. }
    intros H. unfold dict_of. now rewrite G.
  Qed.

  Lemma dget_dict_of (items : list (K * V)) k :
    dget keqb (dict_of keqb items) k = dget keqb (rev items) k.
  Proof.
    unfold dict_of, dupdate.
    assert (G : forall (items d : list (K * V)), dget keqb (fold_left (fun acc kv => dset keqb acc (fst kv) (snd kv)) items d) k
                = match dget keqb (rev items) k with Some v => Some v | None => dget keqb d k end).
    { clear items. induction items as [|[k0 v0] items IH] using rev_ind; intros d; [reflexivity|].
      rewrite fold_left_app, rev_app_distr; cbn. rewrite dget_dset, IH.
      destruct (keqb k0 k); reflexivity. }
    rewrite G. destruct (dget keqb (rev items) k); reflexivity.
  Qed.

  Lemma dict_of_keys_nodup (items : list (K * V)) : NoDup (map fst (dict_of keqb items)).
  Proof.
    unfold dict_of, dupdate.
    assert (G : forall (items d : list (K * V)), NoDup (map fst d) ->
       NoDup (map fst (fold_left (fun acc kv => dset keqb acc (fst kv) (snd kv)) items d))).
    { clear items. induction items as [|[k v] items IH]; cbn; intros d H; [exact H|].
      apply IH, dset_nodup, H. }
    apply G; constructor.
  Qed.
End DictFacts.

(** ** Results *)
Lemma mapM_ok {A B} (f : A -> result B) (g : A -> B) l :
  (forall x, In x l -> f x = Ok (g x)) -> mapM f l = Ok (map g l).
Proof.
  induction l as [|x l IH]; cbn; intros H; [reflexivity|].
  rewrite H by auto. cbn. rewrite IH by auto. reflexivity.
Qed.

Lemma mapM_app {A B} (f : A -> result B) a b :
  mapM f (a ++ b) = (x <- mapM f a ;; y <- mapM f b ;; Ok (x ++ y)).
Proof.
  induction a as [|x a IH]; cbn.
  - destruct (mapM f b); reflexivity.
  - destruct (f x); cbn; [|reflexivity]. rewrite IH.
    destruct (mapM f a); cbn; [|reflexivity]. destruct (mapM f b); reflexivity.
Qed.

Lemma foldM_app {A B} (f : B -> A -> result B) a b z :
  foldM f (a ++ b) z = (y <- foldM f a z ;; foldM f b y).
Proof.
  revert z; induction a as [|x a IH]; intros z; cbn; [reflexivity|].
  destruct (f z x); cbn; [apply IH|reflexivity].
Qed.

(** Keep [cbn] from expanding character comparison into bit tests. *)
Global Arguments Ascii.eqb : simpl never.

(** ** Lists *)
Lemma firstn_S_nth {A} (l : list A) k x : nth_error l k = Some x -> firstn (S k) l = firstn k l ++ [x].
Proof.
  revert l; induction k as [|k IH]; intros [|y l] H; try discriminate; cbn in *.
  - congruence.
  - f_equal. now apply IH.
Qed.

Lemma skipn_nth {A} (l : list A) k x : nth_error l k = Some x -> skipn k l = x :: skipn (S k) l.
Proof.
  revert l; induction k as [|k IH]; intros [|y l] H; try discriminate; cbn in *; [congruence|now apply IH].
Qed.

Lemma nth_error_ext_str {A} (a b : list A) : (forall k, nth_error a k = nth_error b k) -> a = b.
Proof.
  revert b; induction a as [|x a IH]; intros [|y b] H; auto.
  - specialize (H 0). discriminate.
  - specialize (H 0). discriminate.
  - f_equal; [specialize (H 0); cbn in H; congruence|]. apply IH. intros k. apply (H (S k)).
Qed.
