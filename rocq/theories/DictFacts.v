(** Proofs about the dictionary helpers. *)
From Coq Require Import Permutation.
From Verif Require Import PyBase PyFacts PyVal IntStr SpecLine NumProps TypeConv TypeConvFacts Bytes SpecDict DictUtil.
Local Open Scope list_scope.
Local Open Scope nat_scope.

(** ** Dictionaries *)
Section D.
  Context {K V : Type} (keqb : K -> K -> bool) (Hk : forall a b, reflect (a = b) (keqb a b)).
  Notation dget := (@dget K V keqb). Notation dset := (@dset K V keqb). Notation ddel := (@ddel K V keqb).
  Notation dmem := (@dmem K V keqb). Notation dupdate := (@dupdate K V keqb). Notation dict_of := (@dict_of K V keqb).

  Lemma dupdate_app d a b : dupdate d (a ++ b) = dupdate (dupdate d a) b.
  Proof. apply fold_left_app. Qed.
  Lemma dict_of_snoc a k v : dict_of (a ++ [(k, v)]) = dset (dict_of a) k v.
  Proof. unfold PyBase.dict_of. now rewrite dupdate_app. Qed.
  Lemma dset_twice d k v v' : dset (dset d k v) k v' = dset d k v'.
  Proof.
    induction d as [|[k0 v0] d IH]; cbn.
    - destruct (Hk k k); [reflexivity|congruence].
    - destruct (Hk k0 k) as [->|N]; cbn.
      + destruct (Hk k k); [reflexivity|congruence].
      + destruct (Hk k0 k); [contradiction|]. now rewrite IH.
  Qed.
  Lemma dset_comm d k v k' v' : k <> k' -> In k (map fst d) ->
    dset (dset d k' v') k v = dset (dset d k v) k' v'.
  Proof.
    intros N. induction d as [|[k0 v0] d IH]; cbn; [tauto|]. intros H.
    destruct (Hk k0 k') as [->|N'].
    - cbn. destruct (Hk k' k) as [E|E]; [congruence|]. cbn. destruct (Hk k' k'); [reflexivity|congruence].
    - cbn. destruct (Hk k0 k) as [->|N2].
      + cbn. destruct (Hk k k'); [contradiction|reflexivity].
      + cbn. destruct (Hk k0 k'); [contradiction|]. destruct H as [H|H]; [contradiction|]. now rewrite IH.
  Qed.
  Lemma dset_in_keys d k v k' : In k' (map fst (dset d k v)) <-> In k' (map fst d) \/ k' = k.
  Proof.
    rewrite (dset_keys keqb). unfold PyBase.dmem. destruct (dget d k) eqn:E.
    - split; [tauto|]. intros [H| ->]; [exact H|]. apply (dget_in keqb Hk) in E. now apply (in_map fst) in E.
    - rewrite in_app_iff. cbn. intuition congruence.
  Qed.
  Lemma dset_dupdate d k v0 v m : ~ In k (map fst m) -> dset (dupdate (dset d k v0) m) k v = dupdate (dset d k v) m.
  Proof.
    revert d v0 v. induction m as [|[k' v'] m IH] using rev_ind; intros d v0 v H; cbn [PyBase.dupdate fold_left].
    - apply dset_twice.
    - rewrite map_app, in_app_iff in H. cbn in H.
      rewrite !dupdate_app. cbn. rewrite dset_comm.
      + rewrite IH by tauto. reflexivity.
      + intuition.
      + clear -Hk. induction m as [|[k2 v2] m IH] using rev_ind; cbn.
        * apply dset_in_keys. now right.
        * rewrite dupdate_app. cbn. apply dset_in_keys. now left.
  Qed.
  Lemma dset_split d k v : In k (map fst d) -> exists a v0 b, d = a ++ (k, v0) :: b /\ ~ In k (map fst a) /\
    dset d k v = a ++ (k, v) :: b.
  Proof.
    induction d as [|[k0 v0] d IH]; cbn; [tauto|]. destruct (Hk k0 k) as [->|N]; intros H.
    - exists [], v0, d. cbn. auto.
    - destruct H as [H|H]; [contradiction|]. destruct (IH H) as (a & v1 & b & -> & Ha & E).
      exists ((k0, v0) :: a), v1, b. cbn. rewrite E. repeat split; auto. intros [?|?]; auto.
  Qed.
  Lemma dupdate_dset d m k v : NoDup (map fst m) -> dupdate d (dset m k v) = dset (dupdate d m) k v.
  Proof.
    intros Hn. destruct (dget m k) eqn:E.
    - apply (dget_in keqb Hk) in E. apply (in_map fst) in E.
      destruct (dset_split m k v E) as (a & v1 & b & -> & Ha & ->).
      rewrite !dupdate_app. cbn. change (fold_left _ b ?x) with (dupdate x b).
      symmetry. apply dset_dupdate. rewrite map_app in Hn. cbn in Hn. apply NoDup_remove_2 in Hn.
      rewrite in_app_iff in Hn. tauto.
    - rewrite (dset_new keqb) by exact E. rewrite dupdate_app. reflexivity.
  Qed.
  Lemma dupdate_dict_of d m : dupdate d (dict_of m) = dupdate d m.
  Proof.
    induction m as [|[k v] m IH] using rev_ind; [reflexivity|].
    rewrite dict_of_snoc, dupdate_dset by apply (dict_of_keys_nodup keqb Hk). now rewrite IH, dupdate_app.
  Qed.
  Lemma merged_dict_of m : merged m (dict_of m).
  Proof.
    induction m as [|[k v] m IH] using rev_ind; [constructor|]. rewrite dict_of_snoc.
    destruct (dget (dict_of m) k) eqn:E.
    - apply (dget_in keqb Hk) in E. apply (in_map fst) in E.
      destruct (dset_split _ k v E) as (a & v1 & b & E1 & Ha & ->). rewrite E1 in IH. eapply mg_over; eassumption.
    - rewrite (dset_new keqb) by exact E. constructor; [exact IH|]. now apply (dget_none keqb Hk).
  Qed.
  Lemma merged_fun (m out : list (K * V)) : merged m out -> out = dict_of m.
  Proof.
    induction 1; [reflexivity| |]; rewrite dict_of_snoc.
    - rewrite <- IHmerged, (dset_new keqb); [reflexivity|]. now apply (dget_none keqb Hk).
    - rewrite <- IHmerged. clear -H0 Hk. induction a as [|[k1 v1] a IH]; cbn in *.
      + destruct (Hk k k); [reflexivity|congruence].
      + destruct (Hk k1 k) as [->|N]; [tauto|]. rewrite <- IH; tauto.
  Qed.
  Lemma merged_nodup (m : list (K * V)) : NoDup (map fst m) -> forall out, merged m out -> out = m.
  Proof. intros H out Hm. rewrite (merged_fun _ _ Hm). now apply (dict_of_nodup keqb Hk). Qed.

  (** Lookups in [dict_of] find the last value written. *)
  Lemma in_dict_of m k v : In (k, v) (dict_of m) -> In (k, v) m.
  Proof.
    intros H. pose proof (dget_nodup keqb Hk _ k v (dict_of_keys_nodup keqb Hk m) H) as G. clear H. rename G into H.
    rewrite (dget_dict_of keqb Hk) in H. apply (dget_in keqb Hk) in H. rewrite <- in_rev in H. exact H.
  Qed.
  Lemma dict_of_has m k : In k (map fst m) -> In k (map fst (dict_of m)).
  Proof.
    intros H. destruct (dget (dict_of m) k) eqn:E.
    - apply (dget_in keqb Hk) in E. now apply (in_map fst) in E.
    - rewrite (dget_dict_of keqb Hk) in E. apply (dget_none keqb Hk) in E. exfalso. apply E.
      rewrite map_rev, <- in_rev. exact H.
  Qed.
  Lemma in_dict_of_iff m : (forall k v v', In (k, v) m -> In (k, v') m -> v = v') ->
    forall k v, In (k, v) (dict_of m) <-> In (k, v) m.
  Proof.
    intros F k v. split; [apply in_dict_of|]. intros H.
    pose proof (dict_of_has m k (in_map fst _ _ H)) as G. apply in_map_iff in G as ([k' v'] & E & G).
    cbn in E. subst k'. now rewrite (F k v v' H (in_dict_of _ _ _ G)).
  Qed.

  Lemma ddel_absent d k : ~ In k (map fst d) -> ddel d k = d.
  Proof.
    induction d as [|[k0 v0] d IH]; cbn; [reflexivity|]. intros H.
    destruct (Hk k0 k); [subst; tauto|]. now rewrite IH by tauto.
  Qed.
  Lemma ddel_filter d k : NoDup (map fst d) -> ddel d k = filter (fun kv => negb (keqb (fst kv) k)) d.
  Proof.
    induction d as [|[k0 v0] d IH]; cbn; [reflexivity|]. intros H. inversion H; subst.
    destruct (Hk k0 k) as [->|N]; cbn; [|now rewrite IH].
    rewrite <- IH by assumption. symmetry. now apply ddel_absent.
  Qed.
  Lemma dget_ddel d k k' : NoDup (map fst d) -> dget (ddel d k) k' = if keqb k k' then None else dget d k'.
  Proof.
    intros H. induction d as [|[k0 v0] d IH]; cbn.
    - now destruct (keqb k k').
    - inversion H as [|? ? Hn Hd]; subst. destruct (Hk k0 k) as [->|N].
      + destruct (Hk k k') as [->|N']; [now apply (dget_none keqb Hk)|reflexivity].
      + cbn. rewrite (IH Hd). destruct (Hk k0 k') as [->|N']; [|reflexivity].
        destruct (Hk k k'); [congruence|reflexivity].
  Qed.
  Lemma ddel_keys_in d k k' : In k' (map fst (ddel d k)) -> In k' (map fst d).
  Proof.
    induction d as [|[k0 v0] d IH]; cbn; [tauto|]. destruct (keqb k0 k); cbn; tauto.
  Qed.
  Lemma ddel_nodup d k : NoDup (map fst d) -> NoDup (map fst (ddel d k)).
  Proof.
    induction d as [|[k0 v0] d IH]; cbn; [auto|]. intros H. inversion H; subst.
    destruct (keqb k0 k); [assumption|]. cbn. constructor; [|auto]. intros C. now apply ddel_keys_in in C.
  Qed.
End D.

(** ** flatten_dict *)
Lemma not_container v : (match v with VTuple _ | VList _ | VDict _ _ => False | _ => True end) -> ~ container v.
Proof. intros H [(l & ->)|[(l & ->)|(d & its & ->)]]; exact H. Qed.
Lemma container_cases v : (~ container v) \/ (exists l, v = VTuple l) \/ (exists l, v = VList l) \/ (exists d its, v = VDict d its).
Proof. destruct v; try (left; now apply not_container); right; eauto. Qed.

Section Flat.
  Context (ext : key -> str) (ext_ne : forall k, ext k <> []).
  Notation kstr := (key_str ext).
  Lemma truthy_text k : truthy k = true -> kstr k <> [].
  Proof.
    destruct k as [|[]|z|f|s|l]; cbn; try discriminate; auto.
    - intros _. apply str_of_Z_ne.
    - destruct s; [discriminate|discriminate].
  Qed.
  Lemma zero_float_iff f : zero_float f <-> truthy (KFloat f) = false.
  Proof.
    destruct f as [q|b]; cbn [zero_float truthy]; rewrite negb_false_iff.
    - symmetry. apply Z.eqb_eq.
    - destruct b as [|c b]; [split; [reflexivity|now left]|]. cbn [zero_bits]. rewrite andb_true_iff, orb_true_iff, !Ascii.eqb_eq, forallb_forall. split.
      + intros [H|(c' & z & E & H1 & H2)]; [discriminate|]. injection E as <- <-. split; [exact H1|]. intros x Hx.
        rewrite Forall_forall in H2. apply Ascii.eqb_eq. now apply H2.
      + intros [H1 H2]. right. exists c, b. split; [reflexivity|]. split; [exact H1|]. apply Forall_forall. intros x Hx. now apply Ascii.eqb_eq, H2.
  Qed.
  Lemma falsy_iff k : falsy k <-> truthy k = false.
  Proof.
    unfold falsy. destruct k as [|b|z|f|s|l].
    - cbn. split; auto.
    - destruct b; cbn; [|split; auto]. split; [|discriminate]. intros H. decompose [or ex and] H; discriminate.
    - cbn. rewrite negb_false_iff, Z.eqb_eq. split; [|intros ->; auto]. intros H. decompose [or ex and] H; congruence.
    - rewrite <- zero_float_iff. split; [|eauto 10]. intros H. decompose [or ex and] H; congruence.
    - destruct s; cbn; (split; [|auto 10; discriminate]); [reflexivity|]. intros H. decompose [or ex and] H; discriminate.
    - destruct l; cbn; (split; [|auto 10; discriminate]); [reflexivity|]. intros H. decompose [or ex and] H; discriminate.
  Qed.
  Lemma not_falsy k : ~ falsy k -> truthy k = true.
  Proof. rewrite falsy_iff. now destruct (truthy k). Qed.
  (** Below a falsy key nothing is added to the keys. *)
  Lemma flatten_falsy k d its sep : falsy k -> flatten_dict ext [(k, VDict d its)] sep = flatten_dict ext its sep.
  Proof.
    intros H. apply falsy_iff in H. unfold flatten_dict, flatten_from. cbn [flat_map fst snd flat_entry]. rewrite app_nil_r.
    assert (new_key ext (KStr []) sep k = k) as -> by reflexivity.
    assert (flat_map (fun kv => flat_entry ext sep (new_key ext k sep (fst kv)) (snd kv)) its =
            flat_map (fun kv => flat_entry ext sep (new_key ext (KStr []) sep (fst kv)) (snd kv)) its) as ->.
    { apply flat_map_ext. intros kv. unfold new_key. now rewrite H. }
    exact (dupdate_dict_of key_eqb key_eqb_spec [] _).
  Qed.

  (** The entries before any merging. *)
  Fixpoint plain (sep : str) (nk : key) (v : pyval) {struct v} : dict :=
    match v with
    | VDict _ its => flat_map (fun kv => plain sep (new_key ext nk sep (fst kv)) (snd kv)) its
    | VList l | VTuple l =>
        (fix go (i : nat) (l : list pyval) : dict :=
           match l with
           | [] => []
           | x :: l' => plain ($"_") (new_key ext nk ($"_") (KStr (str_of_Z (Z.of_nat i)))) x ++ go (S i) l'
           end) 0 l
    | _ => [(nk, v)]
    end.

  Lemma upd_eq v : forall sep nk d, dupdate key_eqb d (flat_entry ext sep nk v) = dupdate key_eqb d (plain sep nk v).
  Proof.
    induction v as [| | | | | | |l IH|l IH|b its IH] using pyval_ind'; intros sep nk d; try reflexivity.
    1,2: cbn [flat_entry plain]; generalize 0 as i; revert d; induction IH as [|x l Hx _ IHl]; intros d i; [reflexivity|];
      rewrite !dupdate_app, (dupdate_dict_of _ key_eqb_spec), Hx; apply IHl.
    cbn [flat_entry plain]. rewrite (dupdate_dict_of _ key_eqb_spec).
    revert d. induction IH as [|x l Hx _ IHl]; intros d; [reflexivity|]. cbn [flat_map].
    rewrite !dupdate_app, Hx. apply IHl.
  Qed.
  Lemma flatten_plain its sep :
    flatten_dict ext its sep = dict_of key_eqb (flat_map (fun kv => plain sep (fst kv) (snd kv)) its).
  Proof.
    unfold flatten_dict, flatten_from, dict_of. generalize (@nil (key * pyval)) as d.
    induction its as [|x its IH]; intros d; [reflexivity|]. cbn [flat_map].
    rewrite !dupdate_app, upd_eq. apply IH.
  Qed.

  (** The key of a leaf at [p] below something whose key is [nk]. *)
  Definition below (sep : str) (nk : key) (p : list step) : key :=
    match p with [] => nk | _ => KStr (kstr nk ++ rest_text kstr sep p) end.

  Lemma below_ind sep t p : below sep (KStr t) p = KStr (t ++ rest_text kstr sep p).
  Proof. destruct p; cbn [below rest_text key_str]; [now rewrite app_nil_r|reflexivity]. Qed.

  Lemma plain_iff v : forall sep nk, truthy nk = true \/ ~ container v ->
    forall k x, In (k, x) (plain sep nk v) <-> exists p, at_path v p x /\ k = below sep nk p.
  Proof.
    assert (Leaf : forall v sep nk, ~ container v -> plain sep nk v = [(nk, v)] ->
              forall k x, In (k, x) (plain sep nk v) <-> exists p, at_path v p x /\ k = below sep nk p).
    { intros v0 sep nk Hc -> k x. split.
      - intros [E|[]]. injection E as <- <-. exists []. split; [now constructor|reflexivity].
      - intros (p & H & ->). left. inversion H; subst; try reflexivity; exfalso; apply Hc.
        + right; right; eauto.
        + right; left; eauto.
        + left; eauto. }
    induction v as [| | | | | | |l IH|l IH|b its IH] using pyval_ind'; intros sep nk Ht k x;
      try (apply Leaf; [now apply not_container|reflexivity]).
    - destruct Ht as [Ht|Ht]; [|exfalso; apply Ht; left; eauto]. cbn [plain].
      assert (G : forall i, In (k, x) ((fix go (i : nat) (l : list pyval) : dict :=
           match l with
           | [] => []
           | x :: l' => plain ($"_") (new_key ext nk ($"_") (KStr (str_of_Z (Z.of_nat i)))) x ++ go (S i) l'
           end) i l) <-> exists n v p, nth_error l n = Some v /\ at_path v p x /\ k = below sep nk (Index (i + n) :: p)).
      { induction IH as [|y l Hy _ IHl]; intros i.
        - split; [intros []|]. intros (n & v & p & E & _). destruct n; discriminate.
        - rewrite in_app_iff, (IHl (S i)), Hy.
          + unfold new_key. rewrite Ht. split.
            * intros [(p & Hp & ->)|(n & v & p & E & Hp & ->)].
              -- exists 0, y, p. split; [reflexivity|]. split; [exact Hp|]. rewrite below_ind. cbn [below rest_text key_str].
                 rewrite Nat.add_0_r, <- !app_assoc. reflexivity.
              -- exists (S n), v, p. split; [exact E|]. split; [exact Hp|]. now rewrite Nat.add_succ_r.
            * intros (n & v & p & E & Hp & ->). destruct n as [|n].
              -- left. injection E as <-. exists p. split; [exact Hp|]. rewrite below_ind. cbn [below rest_text key_str].
                 rewrite Nat.add_0_r, <- !app_assoc. reflexivity.
              -- right. exists n, v, p. split; [exact E|]. split; [exact Hp|]. now rewrite Nat.add_succ_r.
          + left. unfold new_key. rewrite Ht. cbn. pose proof (truthy_text nk Ht). now destruct (kstr nk). }
      rewrite (G 0). split.
      + intros (n & v & p & E & Hp & ->). exists (Index n :: p). split; [econstructor; eassumption|reflexivity].
      + intros (p & H & ->). inversion H; subst; [exfalso; match goal with HH : ~ container _ |- _ => apply HH end; left; eauto|].
        eauto 6.
    - destruct Ht as [Ht|Ht]; [|exfalso; apply Ht; right; left; eauto]. cbn [plain].
      assert (G : forall i, In (k, x) ((fix go (i : nat) (l : list pyval) : dict :=
           match l with
           | [] => []
           | x :: l' => plain ($"_") (new_key ext nk ($"_") (KStr (str_of_Z (Z.of_nat i)))) x ++ go (S i) l'
           end) i l) <-> exists n v p, nth_error l n = Some v /\ at_path v p x /\ k = below sep nk (Index (i + n) :: p)).
      { induction IH as [|y l Hy _ IHl]; intros i.
        - split; [intros []|]. intros (n & v & p & E & _). destruct n; discriminate.
        - rewrite in_app_iff, (IHl (S i)), Hy.
          + unfold new_key. rewrite Ht. split.
            * intros [(p & Hp & ->)|(n & v & p & E & Hp & ->)].
              -- exists 0, y, p. split; [reflexivity|]. split; [exact Hp|]. rewrite below_ind. cbn [below rest_text key_str].
                 rewrite Nat.add_0_r, <- !app_assoc. reflexivity.
              -- exists (S n), v, p. split; [exact E|]. split; [exact Hp|]. now rewrite Nat.add_succ_r.
            * intros (n & v & p & E & Hp & ->). destruct n as [|n].
              -- left. injection E as <-. exists p. split; [exact Hp|]. rewrite below_ind. cbn [below rest_text key_str].
                 rewrite Nat.add_0_r, <- !app_assoc. reflexivity.
              -- right. exists n, v, p. split; [exact E|]. split; [exact Hp|]. now rewrite Nat.add_succ_r.
          + left. unfold new_key. rewrite Ht. cbn. pose proof (truthy_text nk Ht). now destruct (kstr nk). }
      rewrite (G 0). split.
      + intros (n & v & p & E & Hp & ->). exists (Index n :: p). split; [econstructor; eassumption|reflexivity].
      + intros (p & H & ->). inversion H; subst; [exfalso; match goal with HH : ~ container _ |- _ => apply HH end; right; left; eauto|].
        eauto 6.
    - destruct Ht as [Ht|Ht]; [|exfalso; apply Ht; right; right; eauto]. cbn [plain]. rewrite in_flat_map.
      rewrite Forall_forall in IH.
      assert (E : forall k', new_key ext nk sep k' = KStr (kstr nk ++ sep ++ kstr k'))
        by (intros; unfold new_key; now rewrite Ht).
      assert (Ht' : forall k', truthy (new_key ext nk sep k') = true).
      { intros k'. rewrite E. cbn. pose proof (truthy_text nk Ht). now destruct (kstr nk). }
      split.
      + intros ([k' v'] & Hin & H). cbn in H. apply (IH (k', v') Hin) in H as (p & Hp & ->); [|auto].
        exists (Field k' :: p). split; [econstructor; eassumption|]. rewrite E, below_ind. cbn [below rest_text].
        now rewrite <- !app_assoc.
      + intros (p & H & ->).
        inversion H; subst; [exfalso; match goal with HH : ~ container _ |- _ => apply HH end; right; right; eauto|].
        match goal with Hin : In (?k', ?v') its |- _ => exists (k', v'); split; [exact Hin|]; apply (IH (k', v') Hin); [auto|] end.
        eexists. split; [eassumption|]. cbn [fst]. rewrite E, below_ind. cbn [below rest_text].
        now rewrite <- !app_assoc.
  Qed.

  Definition top_ok (its : dict) : Prop := forall k v, In (k, v) its -> container v -> ~ falsy k.
  Lemma top_plain its sep d : top_ok its -> forall k x,
    In (k, x) (flat_map (fun kv => plain sep (fst kv) (snd kv)) its) <->
    exists p, at_path (VDict d its) p x /\ path_key kstr sep p = Some k.
  Proof.
    intros Ht k x. rewrite in_flat_map. split.
    - intros ([k' v'] & Hin & H). cbn in H. apply plain_iff in H as (p & Hp & ->).
      + exists (Field k' :: p). split; [econstructor; eassumption|]. destruct p; reflexivity.
      + destruct (container_cases v') as [H'|H']; [now right|]. left. apply not_falsy, (Ht k' v' Hin).
        unfold container. tauto.
    - intros (p & H & E).
      inversion H as [? Hc| d' its' k' v' p' x' Hin Hp| |]; subst; [exfalso; apply Hc; right; right; eauto|].
      exists (k', v'). split; [exact Hin|]. cbn [fst snd]. apply plain_iff.
      + destruct (container_cases v') as [H'|H']; [now right|]. left. apply not_falsy, (Ht k' v' Hin).
        unfold container. tauto.
      + exists p'. split; [exact Hp|]. destruct p'; cbn in E |- *; congruence.
  Qed.
End Flat.

Lemma at_path_fun v p x : at_path v p x -> well_keyed v -> forall x', at_path v p x' -> x = x'.
Proof.
  induction 1 as [v Hc|d its k v p x Hin _ IH|l n v p x Hn _ IH|l n v p x Hn _ IH]; intros W x' H'.
  - inversion H'; subst; auto.
  - inversion H'; subst. inversion W as [? Hc|? ? Hnd Hw| |]; subst; [exfalso; apply Hc; right; right; eauto|].
    match goal with Hin' : In (k, ?v') its |- _ =>
      assert (E : v = v'); [|subst v'; eapply IH; eauto] end.
    apply (dget_nodup key_eqb key_eqb_spec its) in Hin; [|assumption].
    match goal with Hin' : In (k, ?v') its |- _ => apply (dget_nodup key_eqb key_eqb_spec its) in Hin'; [congruence|assumption] end.
  - inversion H'; subst. inversion W as [? Hc| | |]; subst; [exfalso; apply Hc; right; left; eauto|].
    match goal with Hn' : nth_error l n = Some ?v' |- _ => rewrite Hn in Hn'; injection Hn' as <- end.
    eapply IH; eauto. match goal with H : forall v, In v l -> _ |- _ => apply H end. eapply nth_error_In, Hn.
  - inversion H'; subst. inversion W as [? Hc| | |]; subst; [exfalso; apply Hc; left; eauto|].
    match goal with Hn' : nth_error l n = Some ?v' |- _ => rewrite Hn in Hn'; injection Hn' as <- end.
    eapply IH; eauto. match goal with H : forall v, In v l -> _ |- _ => apply H end. eapply nth_error_In, Hn.
Qed.

Theorem flatten_exact ext d its sep : (forall k, ext k <> []) -> well_keyed (VDict d its) ->
  (forall k v, In (k, v) its -> container v -> ~ falsy k) ->
  (forall p x p' x', at_path (VDict d its) p x -> at_path (VDict d its) p' x' ->
     path_key (key_str ext) sep p = path_key (key_str ext) sep p' -> p = p') ->
  NoDup (map fst (flatten_dict ext its sep)) /\
  forall k x, In (k, x) (flatten_dict ext its sep) <->
    exists p, at_path (VDict d its) p x /\ path_key (key_str ext) sep p = Some k.
Proof.
  intros He W Ht Hd. rewrite flatten_plain. split; [apply (dict_of_keys_nodup _ key_eqb_spec)|].
  intros k x. rewrite (in_dict_of_iff _ key_eqb_spec); [now apply top_plain|].
  clear k x. intros k x x' H H'. apply (top_plain ext He its sep d Ht) in H as (p & H & E), H' as (p' & H' & E').
  assert (p = p') by (eapply Hd; eauto; congruence). subst p'. eapply at_path_fun; eauto.
Qed.
Theorem flatten_sound ext d its sep k x : (forall k, ext k <> []) ->
  (forall k v, In (k, v) its -> container v -> ~ falsy k) ->
  In (k, x) (flatten_dict ext its sep) -> exists p, at_path (VDict d its) p x /\ path_key (key_str ext) sep p = Some k.
Proof.
  intros He Ht. rewrite flatten_plain. intros H. apply (in_dict_of _ key_eqb_spec) in H.
  revert H. now apply top_plain.
Qed.
Theorem flatten_keys ext d its sep p x k : (forall k, ext k <> []) ->
  (forall k v, In (k, v) its -> container v -> ~ falsy k) ->
  at_path (VDict d its) p x -> path_key (key_str ext) sep p = Some k -> In k (map fst (flatten_dict ext its sep)).
Proof.
  intros He Ht H E. rewrite flatten_plain. apply (dict_of_has _ key_eqb_spec). apply in_map_iff.
  exists (k, x). split; [reflexivity|]. apply (top_plain ext He its sep d Ht). eauto.
Qed.
