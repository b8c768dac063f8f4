(** Facts about the command line. *)
From Coq Require Import Lia.
From Verif Require Import PyBase PyFacts PyVal IntStr SpecStr StrUtilFacts StreamFacts DictUtil SpecDict DictFacts JsonFacts
  PathLib Cli SpecCli PathFacts.
Local Open Scope list_scope.
Local Open Scope nat_scope.

Lemma existsb_str s l : existsb (str_eqb s) l = true <-> In s l.
Proof.
  rewrite existsb_exists. split; [intros (x & H & E); apply str_eqb_eq in E; now subst|]. intros H. exists s. split; [exact H|apply str_eqb_refl].
Qed.
Lemma text_parsers_eq : PARSERS = text_parsers. Proof. reflexivity. Qed.
Lemma binary_parsers_eq : BIN_PARSERS = binary_parsers. Proof. reflexivity. Qed.
Lemma known_types_eq : ALL_NAMES = known_types. Proof. reflexivity. Qed.
Lemma dumpers_eq : SUPPORTED_FORMATS = dumpers. Proof. reflexivity. Qed.
Fixpoint nodupb (l : list str) : bool :=
  match l with [] => true | x :: l' => negb (existsb (str_eqb x) l') && nodupb l' end.
Lemma nodupb_ok l : nodupb l = true -> NoDup l.
Proof.
  induction l as [|x l IH]; cbn; intros H; constructor.
  - apply andb_true_iff in H as [H _]. rewrite negb_true_iff in H. intros K. apply existsb_str in K. congruence.
  - apply IH. now apply andb_true_iff in H as [_ H].
Qed.
Lemma known_nodup : NoDup known_types. Proof. now apply nodupb_ok. Qed.
Lemma dumpers_nodup : NoDup (map fst dumpers). Proof. now apply nodupb_ok. Qed.

Lemma dget_iff {V} (d : list (str * V)) k v : NoDup (map fst d) -> (dget str_eqb d k = Some v <-> In (k, v) d).
Proof. intros H. split; [apply (dget_in _ str_eqb_spec)|now apply (dget_nodup _ str_eqb_spec)]. Qed.
Lemma all_parsers_iff k g : all_parsers k = Some g <-> In (k, g) every_parser.
Proof.
  assert (E : all_parsers k = dget str_eqb every_parser k).
  { unfold all_parsers, every_parser. rewrite text_parsers_eq, binary_parsers_eq. generalize text_parsers as l.
    induction l as [|[x y] l IH]; [reflexivity|]. cbn. now destruct (str_eqb x k). }
  rewrite E. apply dget_iff. apply known_nodup.
Qed.
Lemma all_parsers_none k : all_parsers k = None <-> ~ In k known_types.
Proof.
  split.
  - intros E H. apply in_map_iff in H as ([x g] & <- & H). apply all_parsers_iff in H. cbn in E. congruence.
  - intros H. destruct (all_parsers k) as [g|] eqn:E; [|reflexivity]. apply all_parsers_iff in E. exfalso. apply H.
    apply in_map_iff. now exists (k, g).
Qed.

(** ** Dumpers *)
Theorem get_dumpers_ok yaml fmt d : get_dumpers yaml fmt = Ok d <-> dumps_with yaml fmt d.
Proof.
  unfold get_dumpers, dumps_with. rewrite dumpers_eq. destruct (str_eqb_spec fmt ($"yaml")) as [->|N].
  - destruct yaml as [t|]; cbn [bind].
    + destruct (dget str_eqb dumpers t) as [x|] eqn:E.
      * apply (dget_iff _ _ _ dumpers_nodup) in E. split.
        -- intros H. injection H as ->. right. split; [reflexivity|]. eauto.
        -- intros [[H _]|(_ & t' & H & Hin)]; [congruence|]. injection H as <-.
           apply (dget_iff _ _ _ dumpers_nodup) in E, Hin. congruence.
      * split; [discriminate|]. intros [[H _]|(_ & t' & H & Hin)]; [congruence|]. injection H as <-.
        apply (dget_iff _ _ _ dumpers_nodup) in Hin. congruence.
    + split; [discriminate|]. intros [[H _]|(_ & t' & H & Hin)]; [congruence|discriminate].
  - cbn [bind]. destruct (dget str_eqb dumpers fmt) as [x|] eqn:E.
    + split.
      * intros H. injection H as ->. left. split; [exact N|]. now apply (dget_iff _ _ _ dumpers_nodup).
      * intros [[_ H]|(H & _)]; [|congruence]. apply (dget_iff _ _ _ dumpers_nodup) in H. congruence.
    + split; [discriminate|]. intros [[_ H]|(H & _)]; [|congruence]. apply (dget_iff _ _ _ dumpers_nodup) in H. congruence.
Qed.
Theorem get_dumpers_err yaml fmt e : get_dumpers yaml fmt = Err e ->
  (e = ImportError /\ fmt = $"yaml" /\ yaml = None) \/ (e = ValueError /\ (fmt <> $"yaml" \/ yaml <> None) /\ forall d, ~ dumps_with yaml fmt d).
Proof.
  intros E. assert (Hn : forall d, ~ dumps_with yaml fmt d) by (intros d H; apply get_dumpers_ok in H; congruence).
  unfold get_dumpers in E. destruct (str_eqb_spec fmt ($"yaml")) as [->|N].
  - destruct yaml as [t|]; cbn [bind] in E; [|injection E as <-; auto].
    right. split; [destruct (dget _ _ _); congruence|]. split; [right; discriminate|exact Hn].
  - cbn [bind] in E. right. split; [destruct (dget _ _ _); congruence|]. auto.
Qed.
Lemma dumpers_yaml p r : get_dumpers (yaml_type p r) ($"yaml") =
  if r then Ok ($"ruamel_dumper") else if p then Ok ($"pyyaml_dumper") else Err ImportError.
Proof. now destruct p, r. Qed.
Lemma cli_format_iff fmt : cli_format_ok fmt = true <-> In fmt (map fst dumpers).
Proof.
  unfold cli_format_ok, dmem. rewrite dumpers_eq. destruct (dget str_eqb dumpers fmt) as [d|] eqn:E.
  - apply (dget_iff _ _ _ dumpers_nodup) in E. split; [|reflexivity]. intros _. apply in_map_iff. now exists (fmt, d).
  - apply (dget_none _ str_eqb_spec) in E. split; [discriminate|contradiction].
Qed.

(** ** Selecting files *)
Definition chosen (to_parse : list str) (a : args) (t : str) : Prop :=
  In t to_parse \/ a_inc a t = true \/
  (to_parse = [] /\ (a_inc_all a = true \/ forall t', In t' known_types -> a_inc a t' = false)).
Lemma included_iff a tp t : In t known_types -> (included a tp t = true <-> chosen tp a t).
Proof.
  intros Ht. unfold included, chosen. rewrite known_types_eq, orb_true_iff, existsb_str.
  assert (E : existsb (str_eqb t) known_types = true) by now apply existsb_str. rewrite E. cbn [orb].
  assert (Hn : negb (existsb (a_inc a) known_types) = true <-> forall t', In t' known_types -> a_inc a t' = false).
  { rewrite negb_true_iff. split.
    - intros H t' Ht'. destruct (a_inc a t') eqn:E'; [|reflexivity].
      assert (existsb (a_inc a) known_types = true) by (apply existsb_exists; eauto). congruence.
    - intros H. destruct (existsb (a_inc a) known_types) eqn:E'; [|reflexivity]. apply existsb_exists in E' as (x & Hx & Hx').
      rewrite H in Hx' by exact Hx. discriminate. }
  rewrite <- Hn. destruct tp as [|x tp]; cbn [isempty]; rewrite ?andb_true_r, ?andb_false_r.
  - rewrite <- orb_true_iff. destruct (a_inc_all a || negb (existsb (a_inc a) known_types)).
    + split; [intros _; right; right; auto|reflexivity || (intros _; now right)].
    + rewrite ?orb_false_r. split.
      * intros H. destruct H as [H|H]; auto.
      * intros [H|[H|[_ H]]]; auto; discriminate.
  - split; [tauto|]. intros [H|[H|[H _]]]; auto. discriminate.
Qed.

(** [b] is [a] with [D t] added to the files of each type. *)
Definition extends (D : str -> list str) (a b : list (str * list str)) : Prop :=
  map fst b = map fst a /\ forall t l, dget str_eqb a t = Some l -> dget str_eqb b t = Some (l ++ D t).
Lemma extends_refl a : extends (fun _ => []) a a.
Proof. split; [reflexivity|]. intros t l ->. now rewrite app_nil_r. Qed.
Lemma extends_trans D E a b c : extends D a b -> extends E b c -> extends (fun t => D t ++ E t) a c.
Proof. intros [H1 H2] [H3 H4]. split; [congruence|]. intros t l H. rewrite app_assoc. auto. Qed.
Lemma extends_ext D E a b : (forall t, D t = E t) -> extends D a b -> extends E a b.
Proof. intros H [H1 H2]. split; [exact H1|]. intros t l Hl. rewrite <- H. auto. Qed.
Lemma dset_same_keys {V} (d : list (str * V)) k v w : dget str_eqb d k = Some w -> map fst (dset str_eqb d k v) = map fst d.
Proof.
  induction d as [|[x y] d IH]; cbn; [discriminate|]. destruct (str_eqb x k); cbn; [reflexivity|]. intros H. now rewrite IH.
Qed.
Lemma add_file_ok files typ l : In typ (map fst files) -> exists files', add_file files typ l = Ok files' /\
  extends (fun t => if str_eqb t typ then l else []) files files'.
Proof.
  intros H. unfold add_file. destruct (dget str_eqb files typ) as [old|] eqn:E.
  - eexists. split; [reflexivity|]. split; [eapply dset_same_keys; exact E|]. intros t l' Hl.
    rewrite (dget_dset _ str_eqb_spec). destruct (str_eqb_spec typ t) as [->|N].
    + rewrite str_eqb_refl. congruence.
    + destruct (str_eqb_spec t typ) as [->|_]; [congruence|]. now rewrite app_nil_r.
  - apply (dget_none _ str_eqb_spec) in E. contradiction.
Qed.

Section Seed.
  Context (fs : fsys) (inc : str -> bool) (root : str) (dirs : list str) (name base e : str).
  Context (Hfs : normal_fs fs) (Hcomp : Forall component (dirs ++ [name])) (Hroot : root_ok root) (Hft : file_type name base e).
  Let seed := {| pt_root := root; pt_parts := dirs ++ [name] |}.
  Definition trial (typ : str) : str := place root (dirs ++ [base ++ dot :: typ]).
  Definition sibling (typ : str) : list str :=
    if inc typ && existsb (fun x => snd x && str_eqb (fst x) (trial typ)) fs then [trial typ] else [].

  Lemma seed_name : path_name seed = name.
  Proof. unfold path_name, seed. cbn [pt_parts]. apply last_last. Qed.
  Lemma name_ne : name <> [].
  Proof. apply Forall_app in Hcomp as [_ H]. now inversion H as [|? ? (K & _) _]. Qed.
  Lemma seed_suffix typ : with_suffix seed (dot :: typ) = Ok {| pt_root := root; pt_parts := dirs ++ [base ++ dot :: typ] |}.
  Proof.
    pose proof name_ne as Hne. unfold with_suffix. rewrite seed_name.
    assert (E : isempty name = false) by now destruct name. rewrite E.
    unfold path_stem. rewrite seed_name. rewrite (proj1 (file_type_iff _ _ _) Hft). cbn [fst].
    unfold seed. cbn [pt_parts pt_root]. now rewrite removelast_last.
  Qed.
  Lemma try_ok typ files : In typ (map fst files) -> exists files', try_typ fs inc seed files typ = Ok files' /\
    extends (fun t => if str_eqb t typ then sibling typ else []) files files'.
  Proof.
    intros H. unfold try_typ. change ("."%char :: typ) with (dot :: typ). rewrite seed_suffix. cbn [bind]. unfold is_file.
    rewrite path_str_place. cbn [pt_root pt_parts]. unfold sibling. fold (trial typ).
    destruct (inc typ && _) eqn:E.
    - apply add_file_ok. exact H.
    - exists files. split; [reflexivity|]. eapply extends_ext; [|apply extends_refl]. intros t. now destruct (str_eqb t typ).
  Qed.
  Lemma try_all_ok types : forall files, (forall t, In t types -> In t (map fst files)) ->
    exists files', foldM (try_typ fs inc seed) types files = Ok files' /\
      extends (fun t => concat (map (fun typ => if str_eqb t typ then sibling typ else []) types)) files files'.
  Proof.
    induction types as [|typ types IH]; intros files H.
    - exists files. split; [reflexivity|]. apply extends_refl.
    - destruct (try_ok typ files (H _ (or_introl eq_refl))) as (f1 & E1 & X1). cbn [foldM]. rewrite E1. cbn [bind].
      destruct (IH f1) as (f2 & E2 & X2); [intros t Ht; destruct X1 as [-> _]; apply H; now right|].
      exists f2. split; [exact E2|]. cbn [map concat]. exact (extends_trans _ _ _ _ _ X1 X2).
  Qed.
  Lemma sibling_concat t types : NoDup types ->
    concat (map (fun typ => if str_eqb t typ then sibling typ else []) types) = if existsb (str_eqb t) types then sibling t else [].
  Proof.
    induction types as [|x types IH]; intros H; [reflexivity|]. cbn [map concat existsb]. inversion H as [|? ? Hx Hn]; subst.
    rewrite IH by exact Hn. destruct (str_eqb_spec t x) as [->|N]; [|reflexivity]. cbn [orb].
    destruct (existsb (str_eqb x) types) eqn:E; [apply existsb_str in E; contradiction|]. now rewrite app_nil_r.
  Qed.
  Lemma sibling_iff typ : (inc typ = true /\ In (trial typ, true) fs /\ sibling typ = [trial typ]) \/
    (~ (inc typ = true /\ In (trial typ, true) fs) /\ sibling typ = []).
  Proof.
    unfold sibling. destruct (inc typ); cbn [andb]; [|right; split; [intros [? _]; discriminate|reflexivity]].
    assert (K : existsb (fun x => snd x && str_eqb (fst x) (trial typ)) fs = true <-> In (trial typ, true) fs).
    { rewrite existsb_exists. split.
      - intros ([f b] & Hin & Hx). cbn in Hx. apply andb_true_iff in Hx as [-> Hx]. apply str_eqb_eq in Hx as ->. exact Hin.
      - intros Hin. exists (trial typ, true). split; [exact Hin|]. cbn. apply str_eqb_refl. }
    destruct (existsb _ fs); [left|right]; (split; [intuition congruence|]); [split; [now apply K|reflexivity]|reflexivity].
  Qed.
End Seed.

Lemma take_seed_ok fs inc files s root comps : normal_fs fs -> (forall t, In t known_types -> In t (map fst files)) ->
  denotes s root comps -> comps <> [] -> Forall no_wildcard comps -> (root = [] \/ inc ($"err") = false) ->
  exists D files', take_seed fs inc files s = Ok files' /\ extends D files files' /\
    forall t, In t known_types -> picked known_types fs (fun t => inc t = true) t s (D t).
Proof.
  intros Hfs Hk Hd Hne Hw Hr. destruct (exists_last Hne) as (dirs & name & ->).
  pose proof (denotes_component _ _ _ Hd) as Hc. pose proof (denotes_root _ _ _ Hd) as Hro.
  destruct (file_type_total name) as (base & e & Hft).
  unfold take_seed. rewrite (proj1 (denotes_iff _ _ _) Hd). rewrite known_types_eq.
  assert (Es : tl (path_suffix {| pt_root := root; pt_parts := dirs ++ [name] |}) = e).
  { unfold path_suffix, path_name. cbn [pt_parts]. rewrite last_last. rewrite (proj1 (file_type_iff _ _ _) Hft). cbn [snd]. now destruct e. }
  rewrite Es.
  assert (Ef : is_file fs {| pt_root := root; pt_parts := dirs ++ [name] |} = true <-> In (place root (dirs ++ [name]), true) fs).
  { rewrite is_file_iff, path_str_place. reflexivity. }
  destruct (is_file fs _ && existsb (str_eqb e) known_types) eqn:E.
  - apply andb_true_iff in E as [E1 E2]. apply existsb_str in E2. apply Ef in E1.
    destruct (add_file_ok files e [path_str {| pt_root := root; pt_parts := dirs ++ [name] |}]) as (f' & E3 & X); [now apply Hk|].
    eexists _, f'. split; [exact E3|]. split; [exact X|]. intros t Ht. exists root, dirs, name, base, e. split; [exact Hd|]. split; [exact Hft|].
    left. split; [exact E1|]. split; [exact E2|]. cbv beta. destruct (str_eqb_spec t e) as [->|N]; [left|right]; split; auto.
    now rewrite path_str_place.
  - assert (Hn : ~ (In (place root (dirs ++ [name]), true) fs /\ In e known_types)).
    { intros [H1 H2]. apply Ef in H1. apply existsb_str in H2. rewrite H1, H2 in E. discriminate. }
    destruct (try_all_ok fs inc root dirs name base e Hc Hft known_types files Hk) as (f1 & E1 & X1).
    rewrite E1. cbn [bind].
    assert (X1' : extends (fun t => if existsb (str_eqb t) known_types then sibling fs inc root dirs base t else []) files f1).
    { eapply extends_ext; [|exact X1]. intros t. apply sibling_concat. apply known_nodup. }
    assert (Base : forall l2 t, In t known_types ->
              (t = $"err" /\ inc t = true /\
               kept (fun f => exists x, f = place root (dirs ++ dirs ++ [name ++ dot :: x ++ $".err"]) /\ ~ In slash x) (map fst fs) l2 \/
               ~ (t = $"err" /\ inc t = true) /\ l2 = []) ->
              picked known_types fs (fun t => inc t = true) t s ((if existsb (str_eqb t) known_types then sibling fs inc root dirs base t else []) ++ l2)).
    { intros l2 t Ht H2. exists root, dirs, name, base, e. split; [exact Hd|]. split; [exact Hft|]. right. split; [exact Hn|].
      eexists _, l2. split; [reflexivity|]. split; [|exact H2].
      assert (Et : existsb (str_eqb t) known_types = true) by now apply existsb_str. rewrite Et.
      destruct (sibling_iff fs inc root dirs base t) as [(H3 & H4 & H5)|(H3 & H4)]; [left|right]; auto. }
    destruct (inc ($"err")) eqn:Ei.
    + destruct Hr as [->|]; [|discriminate].
      assert (Hstar : Forall (fun w => ~ In "*"%char w) (dirs ++ [name])) by (eapply Forall_impl; [|exact Hw]; now intros w (H & _)).
      destruct (glob_err fs dirs name Hfs Hc Hstar) as (l & Eg & Kg).
      assert (Ep : path_parent {| pt_root := []; pt_parts := dirs ++ [name] |} = {| pt_root := []; pt_parts := dirs |})
        by (unfold path_parent; cbn [pt_root pt_parts]; now rewrite removelast_last).
      rewrite Ep, path_str_place. cbn [pt_root pt_parts]. rewrite Eg. cbn [bind].
      destruct (add_file_ok f1 ($"err") l) as (f2 & E2 & X2).
      { destruct X1 as [-> _]. apply Hk. apply existsb_str. reflexivity. }
      eexists _, f2. split; [exact E2|]. split; [exact (extends_trans _ _ _ _ _ X1' X2)|]. intros t Ht. cbv beta. apply Base; [exact Ht|].
      destruct (str_eqb_spec t ($"err")) as [->|N]; [left; auto|]. right. split; [intros [? _]; contradiction|reflexivity].
    + eexists _, f1. split; [reflexivity|]. split; [exact X1'|]. intros t Ht.
      cbv beta. rewrite <- (app_nil_r (if existsb _ _ then _ else _)). apply Base; [exact Ht|]. right. split; [|reflexivity]. intros [-> H]. congruence.
Qed.

Theorem parse_args_ok fs a to_parse : normal_fs fs -> NoDup (map fst (a_files a)) ->
  (forall t, In t known_types -> In t (map fst (a_files a))) ->
  (forall s, In s (a_seeds a) -> exists root comps, denotes s root comps /\ comps <> [] /\ Forall no_wildcard comps /\
     (root = [] \/ ~ chosen to_parse a ($"err"))) ->
  exists a', parse_args fs a to_parse = Ok a' /\ map fst (a_files a') = map fst (a_files a) /\
    (forall t, In t known_types -> (a_inc a' t = true <-> chosen to_parse a t)) /\
    forall t given, In t known_types -> In (t, given) (a_files a) ->
      exists ls, Forall2 (picked known_types fs (fun t => a_inc a' t = true) t) (a_seeds a) ls /\
                 In (t, given ++ concat ls) (a_files a').
Proof.
  intros Hfs Hnd Hk Hs. unfold parse_args.
  assert (Herr : In ($"err") known_types) by (apply existsb_str; reflexivity).
  assert (Main : forall seeds files, (forall s, In s seeds -> In s (a_seeds a)) -> (forall t, In t known_types -> In t (map fst files)) ->
    exists Ds files', foldM (take_seed fs (included a to_parse)) seeds files = Ok files' /\
      extends (fun t => concat (map (fun D => D t) Ds)) files files' /\
      Forall2 (fun s D => forall t, In t known_types -> picked known_types fs (fun t => included a to_parse t = true) t s (D t)) seeds Ds).
  { induction seeds as [|s seeds IH]; intros files Hin Hkf.
    - exists [], files. split; [reflexivity|]. split; [apply extends_refl|constructor].
    - destruct (Hs s (Hin _ (or_introl eq_refl))) as (root & comps & H1 & H2 & H3 & H4).
      destruct (take_seed_ok fs (included a to_parse) files s root comps Hfs Hkf H1 H2 H3) as (D & f1 & E1 & X1 & P1).
      { destruct H4 as [H4|H4]; [now left|right]. rewrite <- (included_iff a to_parse _ Herr) in H4. now apply not_true_is_false. }
      destruct (IH f1) as (Ds & f2 & E2 & X2 & P2); [intros x Hx; apply Hin; now right|intros t Ht; destruct X1 as [-> _]; auto|].
      exists (D :: Ds), f2. cbn [foldM]. rewrite E1. cbn [bind]. split; [exact E2|]. split; [exact (extends_trans _ _ _ _ _ X1 X2)|].
      constructor; assumption. }
  destruct (Main (a_seeds a) (a_files a) (fun s H => H) Hk) as (Ds & f' & E & [X1 X2] & P). rewrite E. cbn [bind].
  eexists. split; [reflexivity|]. cbn [a_files a_inc]. split; [exact X1|]. split; [intros t Ht; now apply included_iff|].
  intros t given Ht Hg. exists (map (fun D => D t) Ds). split.
  - clear - P Ht. induction P as [|s D seeds Ds H P IH]; cbn; constructor; auto.
  - apply (dget_in _ str_eqb_spec). apply X2. now apply (dget_nodup _ str_eqb_spec).
Qed.

Theorem parse_args_absolute fs a to_parse s seeds root comps : a_seeds a = s :: seeds -> NoDup (map fst (a_files a)) ->
  (forall t, In t known_types -> In t (map fst (a_files a))) ->
  denotes s root comps -> root <> [] -> comps <> [] -> (forall t, ~ (type_of_path s t /\ In t known_types)) ->
  chosen to_parse a ($"err") -> parse_args fs a to_parse = Err NotImplementedErr.
Proof.
  intros Hs Hnd Hk Hd Hr Hne Ht Hc. unfold parse_args. rewrite Hs. cbn [foldM].
  assert (Herr : In ($"err") known_types) by (apply existsb_str; reflexivity).
  assert (Hi : included a to_parse ($"err") = true) by now apply included_iff.
  destruct (exists_last Hne) as (dirs & name & ->).
  pose proof (denotes_component _ _ _ Hd) as Hcm. pose proof (denotes_root _ _ _ Hd) as Hro.
  destruct (file_type_total name) as (base & e & Hft).
  unfold take_seed. rewrite (proj1 (denotes_iff _ _ _) Hd), known_types_eq.
  assert (Es : tl (path_suffix {| pt_root := root; pt_parts := dirs ++ [name] |}) = e).
  { unfold path_suffix, path_name. cbn [pt_parts]. rewrite last_last. rewrite (proj1 (file_type_iff _ _ _) Hft). cbn [snd]. now destruct e. }
  rewrite Es. destruct (existsb (str_eqb e) known_types) eqn:E.
  { apply existsb_str in E. exfalso. apply (Ht e). split; [|exact E]. now exists root, dirs, name, base. }
  rewrite andb_false_r. destruct (try_all_ok fs (included a to_parse) root dirs name base e Hcm Hft known_types (a_files a) Hk) as (f1 & E1 & _).
  rewrite E1. cbn [bind]. rewrite Hi. unfold glob. rewrite path_str_place. cbn [pt_root pt_parts]. rewrite place_app.
  assert (Er : pt_root (path_of (place root (dirs ++ [name ++ $".*.err"]))) = root).
  { rewrite path_of_place; [reflexivity|exact Hro| |now destruct dirs].
    apply Forall_app in Hcm as [H1 H2]. apply Forall_app. split; [exact H1|]. inversion H2 as [|? ? (K1 & K2 & K3) _]; subst. repeat constructor.
    - now destruct name.
    - intros K. apply (f_equal (@length _)) in K. rewrite app_length in K. cbn in K. lia.
    - rewrite in_app_iff. cbn. intros [K|K]; [contradiction|]. repeat (destruct K as [K|K]; [discriminate|]). exact K. }
  rewrite Er. destruct root; [congruence|reflexivity].
Qed.
Theorem extract_ok a l : NoDup (map fst (a_files a)) -> extract_parsables a = Ok l ->
  map fst l = known_types /\ forall t ps, In (t, ps) l <-> In t known_types /\ In (t, ps) (a_files a).
Proof.
  intros Hnd. unfold extract_parsables. rewrite known_types_eq. generalize known_types as ts. intros ts. revert l.
  induction ts as [|t ts IH]; intros l; cbn [mapM].
  - intros H. injection H as <-. cbn. split; [reflexivity|]. intros; tauto.
  - destruct (dget str_eqb (a_files a) t) as [x|] eqn:E; cbn [bind]; [|discriminate].
    destruct (mapM _ ts) as [l'|] eqn:E2; cbn [bind]; [|discriminate]. intros H. injection H as <-.
    destruct (IH l' eq_refl) as [H1 H2]. cbn [map fst]. split; [congruence|]. intros t' ps. cbn [In]. rewrite H2.
    apply (dget_in _ str_eqb_spec) in E. split.
    + intros [K|[K1 K2]]; [injection K as <- <-|]; auto.
    + intros [[->|K1] K2]; [|auto]. left. f_equal.
      apply (dget_iff _ _ _ Hnd) in E, K2. congruence.
Qed.

(** ** Parser dispatch *)
Inductive dispatches : infile -> parg -> str -> Prop :=
| by_function f g : dispatches f (Func g) g
| by_name f n g : In (n, g) text_parsers -> dispatches f (Named n) g
| by_type s t g p : (p = NoParser \/ exists n, p = Named n /\ ~ In n (map fst text_parsers)) ->
    type_of_path s t -> In (t, g) every_parser -> dispatches (InPath s) p g.
Lemma path_type s : strip_by (Ascii.eqb ".") (path_suffix (path_of s)) <> [] ->
  type_of_path s (strip_by (Ascii.eqb ".") (path_suffix (path_of s))).
Proof.
  pose proof (denotes_total s) as Hd. destruct (path_of s) as [root comps]. cbn [pt_root pt_parts] in Hd.
  intros H. destruct comps as [|c0 cs] eqn:Ec; [exfalso; apply H; reflexivity|]. rewrite <- Ec in *.
  assert (Hne : comps <> []) by (subst; discriminate). clear Ec. destruct (exists_last Hne) as (dirs & name & ->).
  destruct (file_type_total name) as (base & e & Hft). exists root, dirs, name, base. split; [exact Hd|].
  unfold path_suffix, path_name in *. cbn [pt_parts] in *. rewrite last_last in *. rewrite (proj1 (file_type_iff _ _ _) Hft) in *. cbn [snd] in *.
  destruct Hft as [(H1 & H2 & H3 & H4)|(-> & _)]; [|exfalso; now apply H].
  assert (E : strip_by (Ascii.eqb ".") (with_dot e) = e).
  { destruct e as [|x e]; [congruence|]. change (with_dot (x :: e)) with ([dot] ++ (x :: e)).
    rewrite <- (app_nil_r (x :: e)) at 1. apply strip_by_core; try reflexivity; [| |discriminate].
    - cbn. destruct (Ascii.eqb_spec "." x) as [<-|]; [exfalso; apply H4; now left|reflexivity].
    - apply last_not_forallb. apply forallb_forall. intros c Hc. destruct (Ascii.eqb_spec "." c) as [<-|]; [contradiction|reflexivity]. }
  rewrite E. left. auto.
Qed.
Lemma path_type_conv s t : type_of_path s t -> strip_by (Ascii.eqb ".") (path_suffix (path_of s)) = t.
Proof.
  intros (root & dirs & name & base & Hd & Hft). rewrite (proj1 (denotes_iff _ _ _) Hd).
  unfold path_suffix, path_name. cbn [pt_parts]. rewrite last_last, (proj1 (file_type_iff _ _ _) Hft). cbn [snd].
  destruct Hft as [(H1 & H2 & H3 & H4)|(-> & _)]; [|reflexivity].
  destruct t as [|x e]; [congruence|]. change (with_dot (x :: e)) with ([dot] ++ (x :: e)).
  rewrite <- (app_nil_r (x :: e)) at 1. apply strip_by_core; try reflexivity; [| |discriminate].
  - cbn. destruct (Ascii.eqb_spec "." x) as [<-|]; [exfalso; apply H4; now left|reflexivity].
  - apply last_not_forallb. apply forallb_forall. intros c Hc. destruct (Ascii.eqb_spec "." c) as [<-|]; [contradiction|reflexivity].
Qed.
Lemma text_nodup : NoDup (map fst text_parsers). Proof. now apply nodupb_ok. Qed.
Theorem choose_ok f p g : choose_parser f p = Ok g <-> dispatches f p g.
Proof.
  assert (ByType : forall s p, (p = NoParser \/ exists n, p = Named n /\ ~ In n (map fst text_parsers)) ->
    (match all_parsers (strip_by (Ascii.eqb ".") (path_suffix (path_of s))) with None => Err ValueError | Some g => Ok g end = Ok g
      <-> dispatches (InPath s) p g)).
  { intros s q Hq. split.
    - destruct (all_parsers _) as [x|] eqn:E; [|discriminate]. intros H. injection H as ->. eapply by_type; [exact Hq| |apply all_parsers_iff; exact E].
      apply path_type. intros K. rewrite K in E. discriminate.
    - intros H. inversion H as [? ?|? n ? Hin|? t ? ? Hp Ht Hin]; subst.
      + destruct Hq as [|(? & ? & _)]; discriminate.
      + destruct Hq as [|(m & E & K)]; [discriminate|]. injection E as <-. exfalso. apply K. apply in_map_iff. now exists (n, g).
      + rewrite (path_type_conv _ _ Ht). apply all_parsers_iff in Hin. now rewrite Hin. }
  unfold choose_parser. rewrite text_parsers_eq. destruct p as [|n|h].
  - destruct f as [s|i]; [apply ByType; now left|]. split; [discriminate|]. inversion 1.
  - destruct (dget str_eqb text_parsers n) as [x|] eqn:E.
    + apply (dget_iff _ _ _ text_nodup) in E. split.
      * intros H. injection H as ->. now constructor.
      * inversion 1 as [? ?|? ? ? Hin|? t ? ? Hp Ht Hin]; subst.
        -- apply (dget_iff _ _ _ text_nodup) in E, Hin. congruence.
        -- destruct Hp as [|(m & K & Kn)]; [discriminate|]. injection K as <-. exfalso. apply Kn. apply in_map_iff. now exists (n, x).
    + apply (dget_none _ str_eqb_spec) in E. destruct f as [s|i]; [apply ByType; right; eauto|]. split; [discriminate|].
      inversion 1 as [? ?|? ? ? Hin|]; subst. exfalso. apply E. apply in_map_iff. now exists (n, g).
  - split; [intros H; injection H as ->; constructor|]. inversion 1 as [|? ? ? ?|? ? ? ? Hp]; subst; [reflexivity|].
    destruct Hp as [|(? & ? & _)]; discriminate.
Qed.
Lemma dispatches_unique f p g g' : dispatches f p g -> dispatches f p g' -> g = g'.
Proof. intros H H'. apply choose_ok in H, H'. congruence. Qed.
Lemma choose_err f p e : choose_parser f p = Err e -> e = ValueError.
Proof.
  unfold choose_parser. destruct p as [|n|h]; [|destruct (dget _ _ _); [discriminate|]|discriminate];
    (destruct f; [destruct (all_parsers _)|]; congruence).
Qed.

Theorem single_dispatch call ext f p g fmt testing : dispatches f p g ->
  parse_single call ext f p fmt testing =
  (v <- call g (str_eqb g ($"parse_castep_file") && testing) f ;; v <- prepare ext fmt testing v ;;
   if testing then flatten_all ext v else Ok v).
Proof. intros H. apply choose_ok in H. unfold parse_single. now rewrite H. Qed.
Theorem single_none call ext f p fmt testing : (forall g, ~ dispatches f p g) -> parse_single call ext f p fmt testing = Err ValueError.
Proof.
  intros H. unfold parse_single. destruct (choose_parser f p) as [g|e] eqn:E.
  - apply choose_ok in E. exfalso. eapply H; eauto.
  - cbn [bind]. now rewrite (choose_err _ _ _ E).
Qed.

(** ** parse_all *)
Section All.
  Context (call : str -> bool -> infile -> result pyval) (ext : key -> str) (fmt : str) (testing : bool).
  Definition one (data : list (str * pyval)) (tp : str * str) : result (list (str * pyval)) :=
    match all_parsers (fst tp) with
    | None => Err KeyError
    | Some g => rmap (dset str_eqb data (snd tp)) (parse_single call ext (InPath (snd tp)) (Func g) fmt testing)
    end.
  Lemma foldM_requests files : (forall t ps, In (t, ps) files -> In t known_types) -> forall data,
    foldM (parse_typ call ext fmt testing) files data = foldM one (requests files) data.
  Proof.
    induction files as [|[t ps] files IH]; intros Hk data; [reflexivity|]. cbn [foldM requests]. rewrite foldM_app.
    unfold parse_typ at 1. cbn [fst snd].
    destruct (all_parsers t) as [g|] eqn:E; [|exfalso; apply all_parsers_none in E; apply E; eapply Hk; now left].
    assert (K : forall d, foldM (fun data path => rmap (dset str_eqb data path) (parse_single call ext (InPath path) (Func g) fmt testing)) ps d
                = foldM one (map (fun p => (t, p)) ps) d).
    { induction ps as [|p ps IHp]; intros d; [reflexivity|]. cbn [foldM map]. unfold one at 1. cbn [fst snd]. rewrite E.
      destruct (parse_single _ _ _ _ _ _); cbn [rmap bind]; [apply IHp|reflexivity].
      intros t' ps' [H|H]; [injection H as <- <-|]; eapply Hk; [now left|right; exact H]. }
    rewrite K. destruct (foldM one _ data); cbn [bind]; [|reflexivity]. apply IH. intros t' ps' H. eapply Hk. right. exact H.
  Qed.
  Definition outcome_of (tp : str * str) (r : result pyval) : Prop :=
    exists g, In (fst tp, g) every_parser /\ parse_single call ext (InPath (snd tp)) (Func g) fmt testing = r.
  Lemma fold_one reqs outs : Forall2 (fun tp pv => fst pv = snd tp /\ outcome_of tp (Ok (snd pv))) reqs outs ->
    forall data, foldM one reqs data = Ok (dupdate str_eqb data outs).
  Proof.
    induction 1 as [|[t p] [p' v] reqs outs (Hp & g & Hin & Hv) _ IH]; intros data; [reflexivity|]. cbn [fst snd] in *. subst p'.
    cbn [foldM]. unfold one at 1. cbn [fst snd]. apply all_parsers_iff in Hin. rewrite Hin, Hv. cbn [rmap bind]. rewrite IH. reflexivity.
  Qed.
  Lemma fold_one_err reqs outs : Forall2 (fun tp pv => fst pv = snd tp /\ outcome_of tp (Ok (snd pv))) reqs outs ->
    forall data tp e rest, outcome_of tp (Err e) -> foldM one (reqs ++ tp :: rest) data = Err e.
  Proof.
    intros H data [t p] e rest (g & Hin & He). cbn [fst snd] in *. rewrite foldM_app, (fold_one _ _ H). cbn [bind foldM]. unfold one. cbn [fst snd].
    apply all_parsers_iff in Hin. now rewrite Hin, He.
  Qed.
  Definition shown (data : list (str * pyval)) : dumped := match data with [(_, v)] => Single v | _ => Several data end.
  Theorem all_ok yaml out d files outs data : dumps_with yaml fmt d -> (forall t ps, In (t, ps) files -> In t known_types) ->
    Forall2 (fun tp pv => fst pv = snd tp /\ outcome_of tp (Ok (snd pv))) (requests files) outs -> merged outs data ->
    parse_all call ext yaml out fmt testing files = Ok (d, out, shown data).
  Proof.
    intros Hd Hk Ho Hm. unfold parse_all. apply get_dumpers_ok in Hd. rewrite Hd. cbn [bind]. rewrite foldM_requests by exact Hk.
    rewrite (fold_one _ _ Ho). cbn [bind]. apply (merged_fun _ str_eqb_spec) in Hm. unfold dict_of in Hm. rewrite <- Hm. reflexivity.
  Qed.
  Theorem all_err yaml out d files tp e reqs outs rest : dumps_with yaml fmt d -> (forall t ps, In (t, ps) files -> In t known_types) ->
    requests files = reqs ++ tp :: rest -> Forall2 (fun tp pv => fst pv = snd tp /\ outcome_of tp (Ok (snd pv))) reqs outs ->
    outcome_of tp (Err e) -> parse_all call ext yaml out fmt testing files = Err e.
  Proof.
    intros Hd Hk Hr Ho He. unfold parse_all. apply get_dumpers_ok in Hd. rewrite Hd. cbn [bind]. rewrite foldM_requests by exact Hk.
    rewrite Hr, (fold_one_err _ _ Ho _ _ e) by exact He. reflexivity.
  Qed.
  Theorem all_format yaml out files : (forall d, ~ dumps_with yaml fmt d) ->
    parse_all call ext yaml out fmt testing files =
    Err (if str_eqb fmt ($"yaml") && match yaml with None => true | _ => false end then ImportError else ValueError).
  Proof.
    intros H. unfold parse_all. destruct (get_dumpers yaml fmt) as [d|e] eqn:E; [apply get_dumpers_ok in E; exfalso; eapply H; eauto|].
    cbn [bind]. f_equal. destruct (get_dumpers_err _ _ _ E) as [(-> & -> & ->)|(-> & [N|N] & _)]; [reflexivity| |].
    - destruct (str_eqb_spec fmt ($"yaml")); [contradiction|reflexivity].
    - destruct yaml; [|congruence]. now rewrite andb_false_r.
  Qed.
End All.

(** ** The data handed to the dumpers *)
Theorem single_yaml call ext f p g fmt v : dispatches f p g -> call g false f = Ok v -> fmt = $"yaml" \/ fmt = $"ruamel" ->
  exists v', parse_single call ext f p fmt false = Ok v' /\ yaml_image v v' /\ no_tuple v'.
Proof.
  intros Hd Hv Hf. destruct (normalise_yaml v) as (v' & E & H1 & H2). exists v'. split; [|auto].
  rewrite (single_dispatch _ _ _ _ _ _ _ Hd). rewrite andb_false_r, Hv. cbn [bind]. unfold prepare. rewrite orb_false_r.
  destruct Hf as [-> | ->]; cbn; now rewrite E.
Qed.
Theorem single_json call ext f p g v : dispatches f p g -> call g false f = Ok v -> jsonable v ->
  exists v', parse_single call ext f p ($"json") false = Ok v' /\ json_image (key_str ext) v v' /\ json_ready v'.
Proof.
  intros Hd Hv Hf. destruct (normalise_json ext v Hf) as (v' & E & H1 & H2). exists v'. split; [|auto].
  rewrite (single_dispatch _ _ _ _ _ _ _ Hd). rewrite andb_false_r, Hv. cbn [bind]. unfold prepare. cbn. now rewrite E.
Qed.
Theorem single_plain call ext f p g fmt : dispatches f p g -> ~ In fmt [$"json"; $"yaml"; $"ruamel"] ->
  parse_single call ext f p fmt false = call g false f.
Proof.
  intros Hd Hf. rewrite (single_dispatch _ _ _ _ _ _ _ Hd), andb_false_r. destruct (call g false f) as [v|]; [|reflexivity]. cbn [bind].
  unfold prepare. rewrite orb_false_r. destruct (str_eqb_spec fmt ($"json")) as [->|N1]; [exfalso; apply Hf; now left|].
  destruct (existsb (str_eqb fmt) [$"yaml"; $"ruamel"]) eqn:E; [|reflexivity]. apply existsb_str in E. exfalso. apply Hf. now right.
Qed.

(** ** Testing mode *)
(** [out] is [n] flattened. *)
Definition flat_of (ext : key -> str) (n out : pyval) : Prop :=
  exists d its o, n = VDict d its /\ out = VDict false o /\ NoDup (map fst o) /\
    ((forall k v, In (k, v) its -> container v -> ~ falsy k) ->
     (forall k x, In (k, x) o -> exists p, at_path n p x /\ path_key (key_str ext) ($"_") p = Some k) /\
     (forall p x k, at_path n p x -> path_key (key_str ext) ($"_") p = Some k -> In k (map fst o))).
Lemma flatten_flat ext d its : (forall k, ext k <> []) ->
  flat_of ext (VDict d its) (VDict false (flatten_dict ext its ($"_"))).
Proof.
  intros He. eexists d, its, _. split; [reflexivity|]. split; [reflexivity|]. split.
  - rewrite flatten_plain by exact He. apply (dict_of_keys_nodup _ key_eqb_spec).
  - intros Hf. split; intros; [eapply flatten_sound; eauto|eapply flatten_keys; eauto].
Qed.
Lemma image_dict text d its n : json_image text (VDict d its) n -> exists o, n = VDict false o.
Proof. inversion 1; subst; eauto. exfalso. apply H1. right. right. eauto. Qed.
Theorem single_testing ext call f p g fmt v : (forall k, ext k <> []) -> dispatches f p g ->
  call g (str_eqb g ($"parse_castep_file")) f = Ok v -> jsonable v ->
  (forall d its, v = VDict d its -> exists n out, json_image (key_str ext) v n /\
     parse_single call ext f p fmt true = Ok out /\ flat_of ext n out) /\
  (forall runs, v = VList runs \/ v = VTuple runs -> Forall (fun r => exists d its, r = VDict d its) runs ->
     exists ns outs, Forall2 (json_image (key_str ext)) runs ns /\
       parse_single call ext f p fmt true = Ok (VList outs) /\ Forall2 (flat_of ext) ns outs).
Proof.
  intros He Hd Hv Hj. destruct (normalise_json ext v Hj) as (n & E & Hi & Hr).
  assert (Ep : parse_single call ext f p fmt true = flatten_all ext n).
  { rewrite (single_dispatch _ _ _ _ _ _ _ Hd), andb_true_r, Hv. cbn [bind]. unfold prepare. rewrite orb_true_r, E. reflexivity. }
  split.
  - intros d its ->. destruct (image_dict _ _ _ _ Hi) as (o & ->). eexists _, _. split; [exact Hi|]. rewrite Ep.
    split; [reflexivity|]. now apply flatten_flat.
  - intros runs Hruns Hall.
    assert (K : exists ns, n = VTuple ns /\ Forall2 (json_image (key_str ext)) runs ns).
    { destruct Hruns as [-> | ->]; inversion Hi as [? ? Hc| | | |]; subst; eauto; exfalso; apply Hc; [right; left|left]; eauto. }
    destruct K as (ns & -> & Hns). exists ns. rewrite Ep. cbn [flatten_all].
    assert (K : exists outs, mapM (flatten_val ext) ns = Ok outs /\ Forall2 (flat_of ext) ns outs).
    { clear - Hns Hall He. revert Hall. induction Hns as [|r m runs ns Hr Hns IH]; intros Hall; [exists []; split; [reflexivity|constructor]|].
      inversion Hall as [|? ? (d & its & ->) Hall']; subst. destruct (IH Hall') as (outs & E & F).
      destruct (image_dict _ _ _ _ Hr) as (o & ->). cbn [mapM flatten_val bind]. rewrite E. cbn [bind]. eexists. split; [reflexivity|].
      constructor; [now apply flatten_flat|exact F]. }
    destruct K as (outs & -> & F). exists outs. split; [exact Hns|]. split; [reflexivity|exact F].
Qed.
