(** Proofs about add_aliases, stack_dict and the small dictionary helpers. *)
From Coq Require Import Permutation.
From Verif Require Import PyBase PyFacts PyVal IntStr TypeConv Bytes SpecDict DictUtil DictFacts.
Local Open Scope list_scope.
Local Open Scope nat_scope.

Lemma entry_dget {V} (d : list (key * V)) k v : NoDup (map fst d) -> (entry d k v <-> dget key_eqb d k = Some v).
Proof.
  intros H. split; [now apply (dget_nodup _ key_eqb_spec)|apply (dget_in _ key_eqb_spec)].
Qed.
Lemma absent_dget {V} (d : list (key * V)) k : absent d k <-> dget key_eqb d k = None.
Proof. symmetry. apply (dget_none _ key_eqb_spec). Qed.

(** ** stack_dict *)
Definition opt_list {V} (o : option (list V)) : list V := match o with Some l => l | None => [] end.
Lemma stack_row {V} (row : list (key * V)) : NoDup (map fst row) -> forall out, NoDup (map fst out) ->
  exists out', stack_dict true out row = Ok out' /\ NoDup (map fst out') /\
  forall k, dget key_eqb out' k = match dget key_eqb row k with
                                  | Some v => Some (opt_list (dget key_eqb out k) ++ [v])
                                  | None => dget key_eqb out k end.
Proof.
  unfold stack_dict. induction row as [|[k0 v0] row IH]; intros Hn out Ho.
  - exists out. cbn. auto.
  - inversion Hn as [|? ? Hnot Hn']; subst. cbn [foldM fst snd].
    set (out1 := dset key_eqb out k0 (opt_list (dget key_eqb out k0) ++ [v0])).
    assert (E : match dget key_eqb out k0 with
                | Some l => Ok (dset key_eqb out k0 (l ++ [v0]))
                | None => Ok (dset key_eqb out k0 [v0]) end = Ok out1)
      by (unfold out1; now destruct (dget key_eqb out k0)).
    rewrite E. cbn [bind]. destruct (IH Hn' out1) as (out' & E' & Hd & G).
    + now apply (dset_nodup _ key_eqb_spec).
    + exists out'. split; [exact E'|]. split; [exact Hd|]. intros k. rewrite G. unfold out1.
      rewrite (dget_dset _ key_eqb_spec). cbn [dget].
      destruct (key_eqb_spec k0 k) as [->|N]; [|reflexivity].
      assert (dget key_eqb row k = None) as -> by now apply (dget_none _ key_eqb_spec). reflexivity.
Qed.
Theorem stack_columns {V} (rows : list (list (key * V))) :
  Forall (fun r => NoDup (map fst r)) rows ->
  exists out, foldM (stack_dict true) rows [] = Ok out /\ NoDup (map fst out) /\
  forall k vs, column k rows vs -> (vs = [] -> absent out k) /\ (vs <> [] -> entry out k vs).
Proof.
  intros H.
  assert (G : forall (rows : list (list (key * V))), Forall (fun r => NoDup (map fst r)) rows -> forall out0, NoDup (map fst out0) ->
     exists out, foldM (stack_dict true) rows out0 = Ok out /\ NoDup (map fst out) /\
     forall k vs, column k rows vs -> dget key_eqb out k =
        match vs with [] => dget key_eqb out0 k | _ => Some (opt_list (dget key_eqb out0 k) ++ vs) end).
  { clear rows H. induction rows as [|r rows IH]; intros H out0 Ho.
    - exists out0. cbn. split; [reflexivity|]. split; [exact Ho|]. intros k vs C. inversion C. reflexivity.
    - inversion H as [|? ? Hr Hs]; subst. cbn [foldM]. destruct (stack_row r Hr out0 Ho) as (o1 & E1 & D1 & G1).
      rewrite E1. cbn [bind]. destruct (IH Hs o1 D1) as (out & E & D & G). exists out. split; [exact E|].
      split; [exact D|]. intros k vs C. inversion C as [|? ? v vs' He C'|? ? vs' Ha C']; subst.
      + rewrite (G k vs' C'), G1. apply entry_dget in He; [|exact Hr]. rewrite He. cbn [opt_list].
        destruct vs' as [|v' vs']; [reflexivity|]. now rewrite <- app_assoc.
      + rewrite (G k vs C'), G1. apply absent_dget in Ha. now rewrite Ha. }
  destruct (G rows H [] ltac:(constructor)) as (out & E & D & F). exists out. split; [exact E|]. split; [exact D|].
  intros k vs C. specialize (F k vs C). cbn in F. split.
  - intros ->. apply absent_dget. exact F.
  - intros Hne. apply entry_dget; [exact D|]. rewrite F. now destruct vs.
Qed.
Lemma column_total {V} (k : key) (rows : list (list (key * V))) :
  Forall (fun r => NoDup (map fst r)) rows -> exists vs, column k rows vs /\ forall vs', column k rows vs' -> vs' = vs.
Proof.
  induction 1 as [|r rows Hr _ (vs & C & U)].
  - exists []. split; [constructor|]. intros vs' C. now inversion C.
  - destruct (dget key_eqb r k) as [v|] eqn:E.
    + exists (v :: vs). split; [apply col_has; [now apply entry_dget|exact C]|].
      intros vs' C'. inversion C' as [|? ? v' vs2 He C2|? ? vs2 Ha C2]; subst.
      * apply entry_dget in He; [|exact Hr]. f_equal; [congruence|auto].
      * apply absent_dget in Ha. congruence.
    + exists vs. split; [apply col_skip; [now apply absent_dget|exact C]|].
      intros vs' C'. inversion C' as [|? ? v' vs2 He C2|? ? vs2 Ha C2]; subst; [|auto].
      apply entry_dget in He; [|exact Hr]. congruence.
Qed.

(** ** add_aliases *)
Section A.
  Context {V : Type}.
  Notation get := (@dget key V key_eqb).
  Lemma alias_fold (rp : bool) (orig : list (key * V)) : forall al out,
    NoDup (map fst out) -> NoDup (map fst al) -> NoDup (map snd al) ->
    (forall k, In k (map fst al) -> ~ In k (map snd al)) ->
    (forall k, In k (map fst al) -> get out k = get orig k) ->
    exists out', foldM (alias_copy key_eqb rp orig) al out = Ok out' /\
                 foldM (alias_inplace key_eqb rp) al out = Ok out' /\ NoDup (map fst out') /\
      (forall f t v, In (f, t) al -> get orig f = Some v -> get out' t = Some v) /\
      (forall f, In f (map fst al) -> get out' f = if rp then None else get orig f) /\
      (forall k, ~ In k (map fst al) -> (forall f, In (f, k) al -> get orig f = None) -> get out' k = get out k).
  Proof.
    induction al as [|[f t] al IH]; intros out Ho Hf Ht Hd Hs.
    - exists out. cbn. repeat split; auto; intros; tauto.
    - cbn in Hf, Ht. inversion Hf as [|? ? Hf1 Hf2]; inversion Ht as [|? ? Ht1 Ht2]; subst.
      assert (Hft : f <> t). { intros ->. apply (Hd t); now left. }
      assert (Htf : ~ In t (map fst al)). { intros C. apply (Hd t); [now right|now left]. }
      assert (Hd' : forall k, In k (map fst al) -> ~ In k (map snd al)).
      { intros k H C. apply (Hd k); now right. }
      cbn [foldM].
      assert (Ec : alias_copy key_eqb rp orig out (f, t) = alias_inplace key_eqb rp out (f, t)).
      { unfold alias_copy, alias_inplace. cbn [fst snd]. now rewrite (Hs f ltac:(now left)). }
      rewrite Ec. clear Ec.
      assert (Ei : alias_inplace key_eqb rp out (f, t) = match get orig f with
          | None => Ok out
          | Some v => if rp then if dmem key_eqb (dset key_eqb out t v) f
                                 then Ok (ddel key_eqb (dset key_eqb out t v) f) else Err KeyError
                      else Ok (dset key_eqb out t v) end).
      { unfold alias_inplace. cbn [fst snd]. now rewrite (Hs f ltac:(now left)). }
      rewrite Ei. clear Ei. destruct (get orig f) as [v|] eqn:E.
      + set (out1 := dset key_eqb out t v).
        assert (N1 : NoDup (map fst out1)) by now apply (dset_nodup _ key_eqb_spec).
        assert (G1 : forall k, get out1 k = if key_eqb t k then Some v else get out k)
          by (intros; apply (dget_dset _ key_eqb_spec)).
        assert (Em : dmem key_eqb out1 f = true).
        { unfold dmem. rewrite G1. destruct (key_eqb_spec t f); [congruence|]. rewrite (Hs f) by now left. now rewrite E. }
        rewrite Em.
        set (out2 := if rp then ddel key_eqb out1 f else out1).
        assert (E2 : (if rp then Ok (ddel key_eqb out1 f) else Ok out1) = Ok out2) by (unfold out2; now destruct rp).
        rewrite E2. cbn [bind].
        assert (N2 : NoDup (map fst out2)) by (unfold out2; destruct rp; [now apply ddel_nodup|exact N1]).
        assert (G2 : forall k, get out2 k = if rp && key_eqb f k then None else get out1 k).
        { intros k. unfold out2. destruct rp; [|reflexivity]. cbn [andb]. now rewrite (dget_ddel _ key_eqb_spec). }
        destruct (IH out2 N2 Hf2 Ht2 Hd') as (out' & EA & EB & N & A1 & A2 & A3).
        { intros k Hk. rewrite G2, G1. destruct (key_eqb_spec f k) as [->|_]; [contradiction|]. rewrite andb_false_r.
          destruct (key_eqb_spec t k) as [->|_]; [contradiction|]. apply Hs. now right. }
        exists out'. split; [exact EA|]. split; [exact EB|]. split; [exact N|]. split; [|split].
        * intros f' t' v' [Eq|Hin] Hv; [|eapply A1; eassumption]. injection Eq as <- <-.
          rewrite A3; [|exact Htf|].
          -- rewrite G2, G1. destruct (key_eqb_spec f t); [congruence|]. rewrite andb_false_r.
             destruct (key_eqb_spec t t); [congruence|congruence].
          -- intros f2 Hin. exfalso. apply Ht1. apply (in_map snd) in Hin. exact Hin.
        * intros f' [<-|Hin]; [|now apply A2]. cbn [fst].
          rewrite A3; [|exact Hf1|].
          -- rewrite G2, G1. assert (Eff : key_eqb f f = true) by now apply key_eqb_eq. rewrite Eff, andb_true_r.
             destruct rp; [reflexivity|]. destruct (key_eqb_spec t f); [congruence|]. apply Hs. now left.
          -- intros f2 Hin. exfalso. apply (Hd f); [now left|]. right. apply (in_map snd) in Hin. exact Hin.
        * intros k Hk Hfr. rewrite A3.
          -- rewrite G2, G1. destruct (key_eqb_spec f k) as [->|_]; [exfalso; apply Hk; now left|]. rewrite andb_false_r.
             destruct (key_eqb_spec t k) as [->|_]; [|reflexivity]. specialize (Hfr f ltac:(now left)). congruence.
          -- intros C. apply Hk. now right.
          -- intros f2 Hin. apply Hfr. now right.
      + cbn [bind]. destruct (IH out Ho Hf2 Ht2 Hd') as (out' & EA & EB & N & A1 & A2 & A3).
        { intros k Hk. apply Hs. now right. }
        exists out'. split; [exact EA|]. split; [exact EB|]. split; [exact N|]. split; [|split].
        * intros f' t' v' [Eq|Hin] Hv; [congruence|eapply A1; eassumption].
        * intros f' [<-|Hin]; [|now apply A2]. cbn [fst]. rewrite A3; [|exact Hf1|].
          -- rewrite (Hs f) by now left. rewrite E. now destruct rp.
          -- intros f2 Hin. exfalso. apply (Hd f); [now left|]. right. apply (in_map snd) in Hin. exact Hin.
        * intros k Hk Hfr. apply A3; [intros C; apply Hk; now right|]. intros f2 Hin. apply Hfr. now right.
  Qed.
End A.

Theorem add_aliases_spec {V} (d : list (key * V)) al rp ip :
  NoDup (map fst d) -> NoDup (map fst al) -> NoDup (map snd al) ->
  (forall k, In k (map fst al) -> ~ In k (map snd al)) ->
  exists d' out, add_aliases key_eqb d al rp ip = Ok (d', out) /\ NoDup (map fst out) /\
    d' = (if ip then out else d) /\
    (forall f t v, In (f, t) al -> entry d f v -> entry out t v) /\
    (forall f, In f (map fst al) -> if rp then absent out f else forall v, entry out f v <-> entry d f v) /\
    (forall k, ~ In k (map fst al) -> (forall f, In (f, k) al -> absent d f) -> forall v, entry out k v <-> entry d k v).
Proof.
  intros H1 H2 H3 H4.
  destruct (alias_fold rp d al d H1 H2 H3 H4 ltac:(reflexivity)) as (out & EA & EB & N & A1 & A2 & A3).
  exists (if ip then out else d), out. split; [|split; [exact N|split; [reflexivity|]]].
  - unfold add_aliases. rewrite EA, EB. now destruct ip.
  - split; [|split].
    + intros f t v Hin He. apply entry_dget in He; [|exact H1]. apply entry_dget; [exact N|]. eapply A1; eassumption.
    + intros f Hf. specialize (A2 f Hf). destruct rp.
      * now apply absent_dget.
      * intros v. rewrite !entry_dget by assumption. now rewrite A2.
    + intros k Hk Hf v. rewrite !entry_dget by assumption. rewrite A3; [reflexivity|exact Hk|].
      intros f Hin. now apply absent_dget, Hf.
Qed.

(** ** strip_nones *)
Definition is_none (v : pyval) : bool := match v with VNone => true | _ => false end.
Definition memb (k : key) (l : list key) : bool := existsb (key_eqb k) l.
Lemma memb_iff k l : memb k l = true <-> In k l.
Proof.
  unfold memb. rewrite existsb_exists. split.
  - intros (x & H & E). apply key_eqb_eq in E. now subst.
  - intros H. exists k. split; [exact H|now apply key_eqb_eq].
Qed.
Lemma strip_in_spec order : NoDup order -> forall data, NoDup (map fst data) -> (forall k, In k order -> In k (map fst data)) ->
  strip_nones_in order data = Ok (filter (fun kv => negb (is_none (snd kv) && memb (fst kv) order)) data).
Proof.
  unfold strip_nones_in. induction order as [|k order IH]; intros Ho data Hd Hin.
  - cbn. f_equal. symmetry. rewrite <- (filter_ext (fun _ => true)).
    + induction data as [|x l IH]; [reflexivity|]. cbn. f_equal. apply IH; [now inversion Hd|intros ? []].
    + intros a. now rewrite andb_false_r.
  - inversion Ho as [|? ? Hk Ho']; subst. cbn [foldM]. unfold dgetE.
    destruct (dget key_eqb data k) as [v|] eqn:E; [|exfalso; apply (dget_none _ key_eqb_spec) in E; apply E, Hin; now left].
    cbn [bind].
    set (data1 := match v with VNone => ddel key_eqb data k | _ => data end).
    assert (E1 : match v with VNone => Ok (ddel key_eqb data k) | _ => Ok data end = Ok data1)
      by (unfold data1; now destruct v).
    rewrite E1. cbn [bind].
    assert (E2 : data1 = filter (fun kv => negb (is_none (snd kv) && key_eqb (fst kv) k)) data).
    { apply (dget_in _ key_eqb_spec) in E.
      assert (Hu : forall kv, In kv data -> key_eqb (fst kv) k = true -> snd kv = v).
      { intros [k' v'] Hi Ek. apply key_eqb_eq in Ek. cbn in *. subst k'.
        apply (dget_nodup _ key_eqb_spec) in E; [|exact Hd]. apply (dget_nodup _ key_eqb_spec) in Hi; [|exact Hd]. congruence. }
      unfold data1. destruct (is_none v) eqn:En.
      - destruct v; try discriminate. rewrite (ddel_filter _ key_eqb_spec) by exact Hd. apply filter_ext_in.
        intros kv Hi. destruct (key_eqb (fst kv) k) eqn:Ek; [|now rewrite andb_false_r].
        now rewrite (Hu kv Hi Ek).
      - transitivity data; [now destruct v|]. rewrite <- (filter_ext_in (fun _ => true)).
        + clear. induction data as [|x l IH]; [reflexivity|]. cbn. now rewrite <- IH.
        + intros kv Hi. destruct (key_eqb (fst kv) k) eqn:Ek; [|now rewrite andb_false_r].
          now rewrite (Hu kv Hi Ek), En. }
    assert (Hd1 : NoDup (map fst data1)).
    { unfold data1. destruct v; try exact Hd. now apply ddel_nodup. }
    rewrite IH; [|exact Ho'|exact Hd1|].
    + f_equal. rewrite E2. clear. induction data as [|x l IH]; [reflexivity|]. cbn [filter].
      unfold memb at 2. cbn [existsb]. fold (memb (fst x) order).
      destruct (is_none (snd x)) eqn:En; cbn [andb negb orb].
      * destruct (key_eqb (fst x) k); cbn [orb negb filter].
        -- exact IH.
        -- rewrite En. cbn [andb]. destruct (memb (fst x) order); cbn [negb]; [exact IH|]. f_equal. exact IH.
      * cbn [filter]. rewrite En. cbn [andb negb]. f_equal. exact IH.
    + intros k' Hk'. assert (k' <> k) by (intros ->; contradiction). specialize (Hin k' ltac:(now right)).
      rewrite E2. apply in_map_iff in Hin as ([k2 v2] & Ek & Hi). cbn in Ek. subst k2. apply in_map_iff.
      exists (k', v2). split; [reflexivity|]. apply filter_In. split; [exact Hi|]. cbn.
      destruct (key_eqb_spec k' k); [contradiction|]. now rewrite andb_false_r.
Qed.
Theorem strip_nones_spec iter data include exclude :
  (forall l, Permutation (iter l) l) -> NoDup (map fst data) ->
  exists p, strip_nones iter data include exclude = Ok (filter p data) /\
  forall k v, In (k, v) data ->
    (p (k, v) = false <-> v = VNone /\ ~ In k exclude /\ match include with None => True | Some inc => In k inc end).
Proof.
  intros Hp Hd. unfold strip_nones. set (sel := selected data include exclude).
  assert (Hs : NoDup sel) by (apply NoDup_filter, Hd).
  eexists. split; [apply strip_in_spec|].
  - eapply Permutation_NoDup; [symmetry; apply Hp|exact Hs].
  - exact Hd.
  - intros k H. apply (Permutation_in _ (Hp sel)) in H. apply filter_In in H. apply H.
  - intros k v Hin. cbn [fst snd]. rewrite negb_false_iff, andb_true_iff, memb_iff.
    assert (E : In k (iter sel) <-> In k sel).
    { split; apply Permutation_in; [apply Hp|symmetry; apply Hp]. }
    rewrite E. unfold sel, selected. rewrite filter_In, andb_true_iff, negb_true_iff.
    assert (E2 : existsb (key_eqb k) exclude = false <-> ~ In k exclude).
    { rewrite <- memb_iff. unfold memb. destruct (existsb (key_eqb k) exclude); intuition congruence. }
    rewrite E2. apply (in_map fst) in Hin. cbn in Hin.
    assert (E3 : is_none v = true <-> v = VNone) by (destruct v; cbn; split; congruence).
    rewrite E3. destruct include as [inc|]; [|tauto]. fold (memb k inc). rewrite memb_iff. tauto.
Qed.

(** ** filter_underscore *)
Theorem filter_underscore_spec {V} (d : list (str * V)) :
  exists p, filter_underscore d = filter p d /\ forall k v, p (k, v) = false <-> exists t, k = "_"%char :: t.
Proof.
  eexists. split; [reflexivity|]. intros k v. cbn. rewrite negb_false_iff. unfold startswith. cbn.
  destruct k as [|c k].
  - cbn. split; [discriminate|]. intros (t & E). discriminate.
  - cbn. destruct (Ascii.eqb_spec "_" c) as [<-|N].
    + split; [eauto|reflexivity].
    + split; [discriminate|]. intros (t & E). congruence.
Qed.

(** ** get_only *)
Theorem get_only_spec {A} (l : list A) :
  (forall x, get_only l = Ok x <-> l = [x]) /\ ((forall x, l <> [x]) -> get_only l = Err ValueError).
Proof.
  destruct l as [|x [|y l]]; cbn; split; try (intros z; split; congruence); auto.
  intros H. exfalso. eapply H. reflexivity.
Qed.

(** ** fix_data_types *)
Lemma dset_keys_same {V} (d : list (key * V)) k v w : dget key_eqb d k = Some w -> map fst (dset key_eqb d k v) = map fst d.
Proof. intros E. rewrite (dset_keys key_eqb). unfold dmem. now rewrite E. Qed.
Theorem fix_ok : forall types d d', NoDup (map fst types) -> NoDup (map fst d) -> fix_data_types d types = Ok d' ->
  map fst d' = map fst d /\
  forall k v, entry d k v ->
    (forall t, In (k, t) types -> exists v', to_type t v = Ok v' /\ entry d' k v') /\
    (~ In k (map fst types) -> entry d' k v).
Proof.
  unfold fix_data_types. induction types as [|[k0 t0] types IH]; intros d d' Hn Hd H.
  - cbn in H. injection H as <-. split; [reflexivity|]. intros k v He. split; [intros t []|auto].
  - inversion Hn as [|? ? Hk0 Hn']; subst. cbn [foldM fst snd] in H.
    destruct (dget key_eqb d k0) as [v0|] eqn:E0.
    + destruct (to_type t0 v0) as [v1|e] eqn:Et; [|discriminate]. cbn [rmap bind] in H.
      assert (Hks := dset_keys_same d k0 v1 v0 E0).
      destruct (IH _ _ Hn' ltac:(rewrite Hks; exact Hd) H) as [Hm G]. split; [congruence|].
      assert (Hd1 : NoDup (map fst (dset key_eqb d k0 v1))) by (rewrite Hks; exact Hd).
      intros k v He. apply entry_dget in He; [|exact Hd]. split.
      * intros t [Eq|Hin].
        -- injection Eq as <- <-. assert (v = v0) by congruence. subst v. exists v1. split; [exact Et|].
           apply (G k0 v1); [|exact Hk0]. apply entry_dget; [exact Hd1|]. rewrite (dget_dset _ key_eqb_spec).
           destruct (key_eqb_spec k0 k0); congruence.
        -- apply (G k v); [|exact Hin]. apply entry_dget; [exact Hd1|]. rewrite (dget_dset _ key_eqb_spec).
           destruct (key_eqb_spec k0 k) as [->|]; [|exact He]. exfalso. apply Hk0. now apply (in_map fst) in Hin.
      * intros Hnot. cbn in Hnot. apply (G k v); [|tauto]. apply entry_dget; [exact Hd1|]. rewrite (dget_dset _ key_eqb_spec).
        destruct (key_eqb_spec k0 k) as [->|]; [tauto|exact He].
    + cbn [bind] in H. destruct (IH _ _ Hn' Hd H) as [Hm G]. split; [exact Hm|]. intros k v He. split.
      * intros t [Eq|Hin]; [|now apply (G k v He)]. injection Eq as <- <-. apply entry_dget in He; [|exact Hd]. congruence.
      * intros Hnot. cbn in Hnot. apply (G k v He). tauto.
Qed.
Theorem fix_err : forall types d e, NoDup (map fst types) -> NoDup (map fst d) -> fix_data_types d types = Err e ->
  exists k t v, In (k, t) types /\ entry d k v /\ to_type t v = Err e.
Proof.
  unfold fix_data_types. induction types as [|[k0 t0] types IH]; intros d e Hn Hd H; [discriminate|].
  inversion Hn as [|? ? Hk0 Hn']; subst. cbn [foldM fst snd] in H.
  destruct (dget key_eqb d k0) as [v0|] eqn:E0.
  - destruct (to_type t0 v0) as [v1|e'] eqn:Et.
    + cbn [rmap bind] in H. assert (Hks := dset_keys_same d k0 v1 v0 E0).
      destruct (IH _ _ Hn' ltac:(rewrite Hks; exact Hd) H) as (k & t & v & Hin & He & Ev).
      exists k, t, v. split; [now right|]. split; [|exact Ev].
      apply entry_dget in He; [|rewrite Hks; exact Hd]. rewrite (dget_dset _ key_eqb_spec) in He.
      destruct (key_eqb_spec k0 k) as [->|]; [exfalso; apply Hk0; now apply (in_map fst) in Hin|].
      now apply entry_dget.
    + cbn in H. injection H as <-. exists k0, t0, v0. split; [now left|]. split; [now apply entry_dget|exact Et].
  - cbn [bind] in H. destruct (IH _ _ Hn' Hd H) as (k & t & v & Hin & R). exists k, t, v. split; [now right|exact R].
Qed.
Lemma stack_plain {V} (out : list (key * list V)) row : NoDup (map fst out) -> NoDup (map fst row) ->
  ((forall k, In k (map fst row) -> In k (map fst out)) -> stack_dict false out row = stack_dict true out row) /\
  (forall k, In k (map fst row) -> absent out k -> stack_dict false out row = Err KeyError).
Proof.
  unfold stack_dict. revert out. induction row as [|[k0 v0] row IH]; intros out Ho Hr; cbn [map fst] in *.
  - split; [reflexivity|intros k []].
  - inversion Hr as [|? ? Hnot Hr']; subst. cbn [foldM fst snd]. destruct (dget key_eqb out k0) as [l|] eqn:E.
    + cbn [bind].
      assert (G : forall k, In k (map fst (dset key_eqb out k0 (l ++ [v0]))) <-> In k (map fst out)).
      { intros k. enough (map fst (dset key_eqb out k0 (l ++ [v0])) = map fst out) as -> by reflexivity. revert E. clear.
        induction out as [|[k' w] out IH]; cbn [dget dset]; [discriminate|]. destruct (key_eqb k' k0); [reflexivity|].
        intros E. cbn [map fst]. now rewrite IH. }
      destruct (IH (dset key_eqb out k0 (l ++ [v0])) (dset_nodup _ key_eqb_spec _ _ _ Ho) Hr') as [I1 I2]. split.
      * intros H. apply I1. intros k Hk. apply G, H. now right.
      * intros k [<-|Hk] Ha; [apply absent_dget in Ha; congruence|]. apply (I2 k Hk). unfold absent. now rewrite G.
    + split; [|reflexivity]. intros H. exfalso. apply absent_dget in E. apply E, H. now left.
Qed.
