(** Proofs about normalise, json_safe and the remaining dictionary helpers. *)
From Coq Require Import Permutation.
From Verif Require Import PyBase PyFacts PyVal IntStr SpecLine NumProps TypeConv TypeConvFacts Bytes SpecDict DictUtil DictFacts.
Local Open Scope list_scope.
Local Open Scope nat_scope.

Lemma mapM_exists {A B} (f : A -> result B) (R : A -> B -> Prop) l :
  (forall x, In x l -> exists y, f x = Ok y /\ R x y) -> exists ys, mapM f l = Ok ys /\ Forall2 R l ys.
Proof.
  induction l as [|x l IH]; intros H.
  - exists []. split; [reflexivity|constructor].
  - destruct (H x) as (y & E & Hy); [now left|]. destruct IH as (ys & E' & Hs); [intros; apply H; now right|].
    exists (y :: ys). cbn. rewrite E. cbn. rewrite E'. split; [reflexivity|now constructor].
Qed.
Lemma mapM_id {A} (f : A -> result A) l : (forall x, In x l -> f x = Ok x) -> mapM f l = Ok l.
Proof.
  intros H. rewrite (PyFacts.mapM_ok f (fun x => x)) by exact H. now rewrite map_id.
Qed.
Lemma Forall2_in_r {A B} (R : A -> B -> Prop) l l' : Forall2 R l l' -> forall y, In y l' -> exists x, In x l /\ R x y.
Proof.
  induction 1; intros y0 []; subst; [exists x; split; [now left|assumption]|].
  destruct (IHForall2 _ H1) as (x0 & ? & ?). exists x0. split; [now right|assumption].
Qed.
Lemma Forall2_in_l {A B} (R : A -> B -> Prop) l l' : Forall2 R l l' -> forall x, In x l -> exists y, In y l' /\ R x y.
Proof.
  induction 1; intros x0 []; subst; [exists y; split; [now left|assumption]|].
  destruct (IHForall2 _ H1) as (y0 & ? & ?). exists y0. split; [now right|assumption].
Qed.
Lemma Forall2_imp {A B} (R S : A -> B -> Prop) l l' : (forall x y, R x y -> S x y) -> Forall2 R l l' -> Forall2 S l l'.
Proof. intros H. induction 1; constructor; auto. Qed.

Lemma join_us ws : join ($"_") ws = joined_by_underscore ws.
Proof.
  induction ws as [|w ws IH]; [reflexivity|]. cbn [join joined_by_underscore]. destruct ws; [reflexivity|].
  now rewrite IH.
Qed.

Section J.
  Context (ext : key -> str).
  Notation kstr := (key_str ext).

  Lemma json_key_scalar k : scalar_key k -> json_key ext k = Ok k.
  Proof. intros H. destruct k; try reflexivity. exfalso. eapply H; reflexivity. Qed.
  Lemma json_key_image k : known_key k -> exists k', json_key ext k = Ok k' /\ key_image kstr k k'.
  Proof.
    intros [k0 H|k0 l H|l Hne H].
    - exists k0. split; [now apply json_key_scalar|now constructor].
    - eexists. split; [|constructor; exact H]. rewrite <- join_us. destruct k0; try reflexivity.
      exfalso. eapply H; reflexivity.
    - assert (E : exists ls, l = map KTuple ls).
      { clear Hne. induction l as [|x l IH]; [exists []; reflexivity|].
        destruct (H x) as [m ->]; [now left|]. destruct IH as [ls ->]; [intros; apply H; now right|].
        exists (m :: ls). reflexivity. }
      destruct E as [ls ->]. exists (KStr (joined_by_underscore (map kstr (concat ls)))).
      split; [|constructor; intros ->; now apply Hne].
      destruct ls as [|m ls]; [exfalso; now apply Hne|]. unfold json_key. cbn [map].
      change (KTuple m :: map KTuple ls) with (map KTuple (m :: ls)).
      assert (E : mapM (key_elems ext) (map KTuple (m :: ls)) = Ok (map (map kstr) (m :: ls))).
      { apply (mapM_map KTuple (key_elems ext) (map kstr)). reflexivity. }
      rewrite E. cbn [bind]. now rewrite <- concat_map, join_us.
  Qed.
  Lemma key_image_scalar k k' : key_image kstr k k' -> scalar_key k'.
  Proof. intros []; [assumption| |]; intros l0 E; discriminate. Qed.

  (** json_safe leaves JSON-ready data alone. *)
  Lemma json_safe_id v : json_ready v -> json_safe ext v = Ok v.
  Proof.
    induction v as [| | | | | | |l IH|l IH|b its IH] using pyval_ind'; intros H; try reflexivity; inversion H; subst.
    cbn [json_safe]. rewrite mapM_id.
    - cbn [bind]. now rewrite (dict_of_nodup _ key_eqb_spec).
    - intros [k v] Hin. destruct (H3 k v Hin) as [Hs Hr]. cbn [fst snd]. rewrite (json_key_scalar k Hs). cbn [bind].
      rewrite Forall_forall in IH. specialize (IH _ Hin Hr). cbn [snd] in IH. now rewrite IH.
  Qed.

  Theorem normalise_json v : jsonable v -> exists v', normalise (json_mapping ext) v = Ok v' /\
    json_image kstr v v' /\ json_ready v'.
  Proof.
    assert (Same : forall v, (forall a b, v <> VComplex a b) -> ~ container v -> json_ready v ->
              normalise (json_mapping ext) v = Ok v ->
              exists v', normalise (json_mapping ext) v = Ok v' /\ json_image kstr v v' /\ json_ready v').
    { intros v0 H1 H2 H3 H4. exists v0. split; [exact H4|]. split; [now constructor|exact H3]. }
    induction v as [| | | | | | |l IH|l IH|b its IH] using pyval_ind'; intros H; inversion H; subst;
      try (apply Same; [discriminate|now apply not_container|constructor|reflexivity]).
    - eexists. split; [reflexivity|]. split; [constructor|]. constructor.
      + cbn. constructor; [intros [E|[]]; discriminate|]. constructor; [intros []|constructor].
      + intros k v [E|[E|[]]]; injection E as <- <-; (split; [discriminate|constructor]).
    - destruct (mapM_exists (normalise (json_mapping ext)) (fun v v' => json_image kstr v v' /\ json_ready v') l) as (l' & E & F).
      { intros x Hx. rewrite Forall_forall in IH. apply IH; auto. }
      exists (VTuple l'). split; [cbn [normalise]; rewrite E; reflexivity|]. split.
      + constructor. eapply Forall2_imp; [|exact F]. intros x y [Hxy _]. exact Hxy.
      + constructor. intros v Hv. destruct (Forall2_in_r _ _ _ F v Hv) as (x & _ & _ & J). exact J.
    - destruct (mapM_exists (normalise (json_mapping ext)) (fun v v' => json_image kstr v v' /\ json_ready v') l) as (l' & E & F).
      { intros x Hx. rewrite Forall_forall in IH. apply IH; auto. }
      exists (VTuple l'). split; [cbn [normalise]; rewrite E; reflexivity|]. split.
      + constructor. eapply Forall2_imp; [|exact F]. intros x y [Hxy _]. exact Hxy.
      + constructor. intros v Hv. destruct (Forall2_in_r _ _ _ F v Hv) as (x & _ & _ & J). exact J.
    - destruct (mapM_exists (fun kv => rmap (pair (fst kv)) (normalise (json_mapping ext) (snd kv)))
                  (fun kv kv' => fst kv' = fst kv /\ json_image kstr (snd kv) (snd kv') /\ json_ready (snd kv')) its)
        as (its1 & E1 & F1).
      { intros [k v] Hin. rewrite Forall_forall in IH. destruct (IH _ Hin) as (v' & E & J & R).
        - match goal with Hj : forall k v, In (k, v) its -> _ |- _ => exact (proj2 (Hj _ _ Hin)) end.
        - cbn [fst snd] in *. exists (k, v'). rewrite E. cbn. auto. }
      destruct (mapM_exists (fun kv => k <- json_key ext (fst kv) ;; x <- json_safe ext (snd kv) ;; Ok (k, x))
                  (fun kv kv' => snd kv' = snd kv /\ key_image kstr (fst kv) (fst kv')) its1) as (its2 & E2 & F2).
      { intros [k v] Hin. destruct (Forall2_in_r _ _ _ F1 _ Hin) as ([k0 v0] & Hin0 & Ek & _ & R).
        cbn [fst snd] in *. subst k0.
        match goal with Hj : forall k v, In (k, v) its -> _ |- _ =>
          destruct (json_key_image k (proj1 (Hj _ _ Hin0))) as (k' & Ek & I) end.
        exists (k', v). rewrite Ek. cbn [bind]. rewrite json_safe_id by exact R. auto. }
      exists (VDict false (dict_of key_eqb its2)). split; [|split].
      + cbn [normalise]. rewrite E1. cbn [bind apply_map type_of json_mapping json_safe]. unfold apply_map.
        cbn [type_of json_mapping json_safe]. rewrite E2. reflexivity.
      + econstructor; [|apply (merged_dict_of _ key_eqb_spec)].
        clear -F1 F2. revert its2 F2. induction F1 as [|x y l l' (Ek & J & _) F1 IH]; intros its2 F2; inversion F2; subst; constructor.
        * destruct H1 as [Ev I]. rewrite Ev, <- Ek. auto.
        * now apply IH.
      + constructor; [apply (dict_of_keys_nodup _ key_eqb_spec)|].
        intros k v Hin. apply (in_dict_of _ key_eqb_spec) in Hin.
        destruct (Forall2_in_r _ _ _ F2 _ Hin) as ([k1 v1] & Hin1 & Ev & I). cbn [fst snd] in *. subst v1.
        split; [eapply key_image_scalar, I|].
        destruct (Forall2_in_r _ _ _ F1 _ Hin1) as ([k0 v0] & _ & _ & _ & R). exact R.
  Qed.

  (** When the converted keys are distinct, nothing is lost. *)
  Lemma normalise_json_nodup {A} (kf : A -> key) (kt : A -> str) d (rows : list (A * pyval)) :
    (forall a, known_key (kf a)) -> (forall a k', key_image kstr (kf a) k' -> k' = KStr (kt a)) ->
    (forall a v a' v', In (a, v) rows -> In (a', v') rows -> kt a = kt a' -> a = a') ->
    NoDup (map fst rows) -> Forall (fun r => jsonable (snd r)) rows ->
    exists rows', normalise (json_mapping ext) (VDict d (map (fun r => (kf (fst r), snd r)) rows)) =
      Ok (VDict false (map (fun r => (KStr (kt (fst r)), snd r)) rows')) /\
      Forall2 (fun r r' => fst r' = fst r /\ json_image kstr (snd r) (snd r')) rows rows'.
  Proof.
    intros Hk Hi Hinj Hnd Hj.
    destruct (normalise_json (VDict d (map (fun r => (kf (fst r), snd r)) rows))) as (v' & E & J & _).
    { constructor. intros k v Hin. apply in_map_iff in Hin as ([a x] & Ea & Hin). injection Ea as <- <-.
      rewrite Forall_forall in Hj. specialize (Hj _ Hin). auto. }
    inversion J as [? ? Hc| | | |? ? its' out F M]; subst; [exfalso; apply Hc; right; right; eauto|].
    assert (G : exists rows', its' = map (fun r => (KStr (kt (fst r)), snd r)) rows' /\
              Forall2 (fun r r' => fst r' = fst r /\ json_image kstr (snd r) (snd r')) rows rows').
    { clear -F Hi. revert its' F. induction rows as [|[a x] rows IH]; intros its' F; inversion F; subst.
      - exists []. split; [reflexivity|constructor].
      - destruct y as [k' x']. destruct H1 as [I J]. cbn [fst snd] in I, J. apply Hi in I. subst k'.
        destruct (IH _ H3) as (rows' & -> & F'). exists ((a, x') :: rows'). split; [reflexivity|].
        constructor; auto. }
    destruct G as (rows' & -> & F'). exists rows'. split; [|exact F']. rewrite E. do 2 f_equal.
    apply (merged_nodup key_eqb key_eqb_spec _) with (2 := M).
    rewrite map_map. cbn [fst].
    assert (Ef : map fst rows' = map fst rows).
    { clear -F'. induction F' as [|x y l l' [Hf _] _ IH]; [reflexivity|]. cbn. now rewrite Hf, IH. }
    assert (Hinj' : forall a a', In a (map fst rows) -> In a' (map fst rows) -> kt a = kt a' -> a = a').
    { intros a a' H H'. apply in_map_iff in H as ([b y] & <- & H), H' as ([b' y'] & <- & H'). eapply Hinj; eauto. }
    rewrite <- (map_map fst (fun a => KStr (kt a))), Ef. clear -Hnd Hinj'.
    induction (map fst rows) as [|a l IH]; [constructor|]. cbn. inversion Hnd; subst. constructor.
    - intros C. apply in_map_iff in C as (b & Eb & Hb). injection Eb as Eb.
      assert (b = a) by (apply Hinj'; [now right|now left|exact Eb]). now subst.
    - apply IH; [assumption|]. intros; apply Hinj'; auto; now right.
  Qed.

  Lemma atom_key_known a : known_key (atom_key a).
  Proof. apply kk_tuple. discriminate. Qed.
  Lemma atom_key_image a k' : key_image kstr (atom_key a) k' -> k' = KStr (atom_text a).
  Proof.
    intros H. unfold atom_key in H. inversion H as [k0 Hs|k0 l0 Hs|ls Hne E]; subst.
    - exfalso. eapply Hs. reflexivity.
    - reflexivity.
    - destruct ls as [|l ls]; [congruence|]. discriminate.
  Qed.
  Lemma bond_key_known b : known_key (bond_key b).
  Proof.
    apply kk_nested; [discriminate|]. intros k [<-|[<-|[]]]; unfold atom_key; eauto.
  Qed.
  Definition bond_text (b : (str * Z) * (str * Z)) : str := atom_text (fst b) ++ "_"%char :: atom_text (snd b).
  Lemma bond_key_image b k' : key_image kstr (bond_key b) k' -> k' = KStr (bond_text b).
  Proof.
    intros H. unfold bond_key in H. inversion H as [k0 Hs|k0 l0 Hs|ls Hne E]; subst.
    - exfalso. eapply Hs. reflexivity.
    - exfalso. eapply Hs. reflexivity.
    - destruct ls as [|l1 ls]; [discriminate|]. destruct ls as [|l2 ls]; [discriminate|].
      destruct ls; [|discriminate]. injection E as E1 E2. subst l1 l2. destruct b as [[s1 i1] [s2 i2]].
      unfold bond_text, atom_text. cbn. rewrite <- !app_assoc. reflexivity.
  Qed.
End J.

(** ** Injectivity of the joined text *)
Lemma us_split a b a' b' : ~ In "_"%char b -> ~ In "_"%char b' -> a ++ "_"%char :: b = a' ++ "_"%char :: b' -> a = a' /\ b = b'.
Proof.
  revert a'. induction a as [|x a IH]; intros a' Hb Hb' E.
  - destruct a' as [|y a']; cbn in E.
    + injection E as <-. auto.
    + injection E as <- ->. exfalso. apply Hb. apply in_or_app. right. now left.
  - destruct a' as [|y a']; cbn in E.
    + injection E as -> <-. exfalso. apply Hb'. apply in_or_app. right. now left.
    + injection E as -> E. destruct (IH a' Hb Hb' E) as [-> ->]. auto.
Qed.
Lemma us_split_l a b a' b' : ~ In "_"%char a -> ~ In "_"%char a' -> a ++ "_"%char :: b = a' ++ "_"%char :: b' -> a = a' /\ b = b'.
Proof.
  revert a'. induction a as [|x a IH]; intros a' Ha Ha' E.
  - destruct a' as [|y a']; cbn in E; [injection E as <-; auto|]. injection E as <- _. exfalso. apply Ha'. now left.
  - destruct a' as [|y a']; cbn in E; [injection E as -> _; exfalso; apply Ha; now left|].
    injection E as -> E. destruct (IH a') as [-> ->]; auto.
    + intros C. apply Ha. now right.
    + intros C. apply Ha'. now right.
Qed.
Lemma int_no_us z : ~ In "_"%char (str_of_Z z).
Proof. intros H. apply str_of_Z_chars in H as [H|H]; discriminate. Qed.
Lemma atom_text_inj a a' : atom_text a = atom_text a' -> a = a'.
Proof.
  destruct a as [s i], a' as [s' i']. unfold atom_text. cbn. intros E.
  apply us_split in E as [-> E]; try apply int_no_us. apply str_of_Z_inj in E. now subst.
Qed.
Lemma bond_text_inj b b' :
  ~ In "_"%char (fst (fst b)) -> ~ In "_"%char (fst (fst b')) -> bond_text b = bond_text b' -> b = b'.
Proof.
  destruct b as [[s1 i1] a2], b' as [[s1' i1'] a2']. unfold bond_text, atom_text at 1 3. cbn [fst snd].
  intros H H' E. rewrite <- !app_assoc in E. cbn [app] in E. apply us_split_l in E as [-> E]; auto.
  apply us_split_l in E as [E E']; try apply int_no_us. apply str_of_Z_inj in E. apply atom_text_inj in E'. now subst.
Qed.

Theorem json_atoms ext d (rows : list ((str * Z) * pyval)) :
  NoDup (map fst rows) -> Forall (fun r => jsonable (snd r)) rows ->
  exists rows', normalise (json_mapping ext) (VDict d (map (fun r => (atom_key (fst r), snd r)) rows)) =
      Ok (VDict false (map (fun r => (KStr (atom_text (fst r)), snd r)) rows')) /\
      Forall2 (fun r r' => fst r' = fst r /\ json_image (key_str ext) (snd r) (snd r')) rows rows'.
Proof.
  intros H1 H2. apply normalise_json_nodup; auto.
  - apply atom_key_known.
  - intros a k'. apply atom_key_image.
  - intros a v a' v' _ _. apply atom_text_inj.
Qed.
Theorem json_bonds ext d (rows : list (((str * Z) * (str * Z)) * pyval)) :
  NoDup (map fst rows) -> Forall (fun r => jsonable (snd r)) rows ->
  (forall r, In r rows -> ~ In "_"%char (fst (fst (fst r)))) ->
  exists rows', normalise (json_mapping ext) (VDict d (map (fun r => (bond_key (fst r), snd r)) rows)) =
      Ok (VDict false (map (fun r => (KStr (atom_text (fst (fst r)) ++ "_"%char :: atom_text (snd (fst r))), snd r)) rows')) /\
      Forall2 (fun r r' => fst r' = fst r /\ json_image (key_str ext) (snd r) (snd r')) rows rows'.
Proof.
  intros H1 H2 H3. apply (normalise_json_nodup ext bond_key bond_text); auto.
  - apply bond_key_known.
  - intros a k'. apply bond_key_image.
  - intros a v a' v' Hi Hi'. apply bond_text_inj; [apply (H3 _ Hi)|apply (H3 _ Hi')].
Qed.

(** ** YAML *)
Theorem normalise_yaml v : exists v', normalise yaml_mapping v = Ok v' /\ yaml_image v v' /\ no_tuple v'.
Proof.
  assert (Same : forall v, ~ container v -> normalise yaml_mapping v = Ok v ->
            exists v', normalise yaml_mapping v = Ok v' /\ yaml_image v v' /\ no_tuple v').
  { intros v0 H1 H2. exists v0. split; [exact H2|]. split; now constructor. }
  induction v as [| | | | | | |l IH|l IH|b its IH] using pyval_ind';
    try (apply Same; [now apply not_container|reflexivity]).
  1,2: destruct (mapM_exists (normalise yaml_mapping) (fun v v' => yaml_image v v' /\ no_tuple v') l) as (l' & E & F);
    [intros x Hx; rewrite Forall_forall in IH; now apply IH|];
    exists (VList l'); split; [cbn [normalise]; rewrite E; reflexivity|]; split;
    [constructor; eapply Forall2_imp; [|exact F]; intros x y [Hxy _]; exact Hxy|];
    apply nt_list; intros v Hv; destruct (Forall2_in_r _ _ _ F v Hv) as (x & _ & _ & J); exact J.
  destruct (mapM_exists (fun kv => rmap (pair (fst kv)) (normalise yaml_mapping (snd kv)))
              (fun kv kv' => (fst kv = fst kv' /\ yaml_image (snd kv) (snd kv')) /\ no_tuple (snd kv')) its) as (its1 & E1 & F1).
  { intros [k v] Hin. rewrite Forall_forall in IH. destruct (IH _ Hin) as (v' & E & J & R). cbn [fst snd] in *.
    exists (k, v'). rewrite E. cbn. auto. }
  exists (VDict false its1). split; [cbn [normalise]; rewrite E1; reflexivity|]. split.
  - constructor. eapply Forall2_imp; [|exact F1]. intros x y [Hxy _]. exact Hxy.
  - apply nt_dict. intros k v Hin. destruct (Forall2_in_r _ _ _ F1 _ Hin) as (x & _ & _ & J). exact J.
Qed.
